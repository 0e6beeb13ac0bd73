(** Loop-mode histories, continued. *)
From Coq Require Import String.
From Verif Require Import Base EventsModel SimModel SimLemmas SimSpec SimProofs SimProofs2.
Open Scope string_scope.

Lemma mapM_nth {A B} (f : A -> res B) : forall l r, List.length r = List.length l ->
  (forall i x, nth_error l i = Some x -> exists y, nth_error r i = Some y /\ f x = Ok y) ->
  mapM f l = Ok r.
Proof.
  induction l as [|a l IH]; intros [|b r] HL H; try discriminate HL; auto.
  simpl. destruct (H 0%nat a eq_refl) as (y & E1 & E2). simpl in E1. injection E1 as ->.
  rewrite E2. simpl. rewrite (IH r); auto. intros i x Hi. apply (H (Datatypes.S i) x Hi).
Qed.

Definition Last {V} (a : attrs V) (k : string) (v : V) : Prop := bindR (aget a k) a_last = Ok v.
Lemma Last_intro {V} (a : attrs V) k l v : a k = Some (A1 l) -> l <> [] ->
  nth_error l (List.length l - 1) = Some v -> Last a k v.
Proof. intros H Hn Hv. unfold Last, aget. rewrite H. simpl. apply a_last_nth; auto. Qed.

(** the part of the state vector kept as series by collect_states *)
Definition kept (m : mtype) (i : nat) : Prop := m = MThree -> i <> 23%nat.
Definition states_last {V} (m : mtype) (a : attrs V) (r : list V) : Prop :=
  List.length r = n_ODE m /\
  forall i x, nth_error (spec_states m) i = Some x -> kept m i ->
  exists v, nth_error r i = Some v /\ Last a (state_attr x) v.

Definition restart {V} (m : mtype) (init r : list V) : list V :=
  match m with MThree => (firstn 23 r ++ skipn 23 init)%list | _ => r end.

Lemma states_last_y0 {V} (m : mtype) (a : attrs V) (r init : list V) v0 :
  states_last m a r -> List.length init = n_ODE m ->
  (m = MThree -> nth_error init 23 = Some v0 /\ Last a "Vrms_filter" v0) ->
  sim_y0 m a = Ok (restart m init r).
Proof.
  intros [Hl H] Hi H3. unfold sim_y0.
  assert (D : m = MThree \/ m <> MThree) by (destruct m; auto; right; discriminate).
  destruct D as [->|D].
  - destruct (H3 eq_refl) as [Hv HL]. cbn [restart].
    assert (Li : List.length init = 24%nat) by exact Hi. assert (Lr : List.length r = 24%nat) by exact Hl.
    apply mapM_nth.
    { rewrite app_length, firstn_length, skipn_length, Lr, Li. reflexivity. }
    intros i x Hx. rewrite state_attrs3 in Hx.
    destruct (Nat.eq_dec i 23) as [->|Hne].
    + simpl in Hx. injection Hx as <-. exists v0. split; auto.
      rewrite nth_error_app2; rewrite firstn_length, Lr; [|simpl; lia].
      change (23 - Nat.min 23 24)%nat with 0%nat.
      rewrite <- Hv. rewrite <- (firstn_skipn 23 init) at 2.
      rewrite nth_error_app2; rewrite firstn_length, Li; [reflexivity|simpl; lia].
    + assert (Hb : (i < 24)%nat).
      { apply in_index in Hx. rewrite app_length, map_length, firstn_length in Hx. simpl in Hx. lia. }
      rewrite nth_error_app1 in Hx by (rewrite map_length, firstn_length; simpl; lia).
      rewrite nth_error_map in Hx.
      destruct (nth_error (firstn 23 (spec_states MThree)) i) as [q|] eqn:Eq; [|discriminate].
      injection Hx as <-.
      assert (Eq' : nth_error (spec_states MThree) i = Some q).
      { rewrite <- (firstn_skipn 23 (spec_states MThree)). rewrite nth_error_app1; auto.
        apply in_index in Eq. exact Eq. }
      destruct (H i q Eq') as (v & Hv1 & Hv2); [intros _; exact Hne|].
      exists v. split; auto. rewrite nth_error_app1 by (rewrite firstn_length, Lr; simpl; lia).
      rewrite <- (firstn_skipn 23 r) in Hv1. rewrite nth_error_app1 in Hv1; auto.
      rewrite firstn_length, Lr. simpl. lia.
  - assert (E : restart m init r = r) by (destruct m; auto; contradiction). rewrite E.
    apply mapM_nth.
    { rewrite (state_attrs m D), map_length, spec_states_len. exact Hl. }
    intros i x Hx. rewrite (state_attrs m D), nth_error_map in Hx.
    destruct (nth_error (spec_states m) i) as [q|] eqn:Eq; [|discriminate]. injection Hx as <-.
    destruct (H i q Eq) as (v & ? & ?); [intros C; contradiction|]. eauto.
Qed.

Lemma last_nth {A} (l : list A) d : l <> [] -> nth_error l (List.length l - 1) = Some (last l d).
Proof. apply nth_error_last. Qed.
Lemma nth_in_last {V} (sol : list (list V)) : sol <> [] -> In (last sol []) sol.
Proof. intros H. destruct (exists_last H) as (l & x & ->). rewrite last_last. apply in_or_app. right. now left. Qed.

(** After collect_states alone *)
Lemma cs_states {V} (o : ops V) m vdc ts sol (a a' : attrs V) :
  sol <> [] -> (forall r, In r sol -> List.length r = n_ODE m) ->
  collect_states o m vdc ts sol a = Ok a' -> states_last m a' (last sol []).
Proof.
  intros Hne Hr Hx. split; [apply Hr; now apply nth_in_last|].
  intros i x Hi Hk.
  destruct (cs_sound o m vdc ts sol a Hr) as (a2 & kn & Hc & X & H & F).
  assert (a2 = a') as -> by congruence.
  destruct (H (state_attr x)) as (l & E & L & N).
  { apply (cs_check_states o m vdc kn Hc). apply in_map. eapply nth_error_In; eauto. }
  assert (Hlast : List.length (last sol []) = n_ODE m) by (apply Hr; now apply nth_in_last).
  destruct (nth_error_lt (last sol []) i) as [v Hv].
  { rewrite Hlast. apply in_index in Hi. now rewrite spec_states_len in Hi. }
  exists v. split; auto. destruct sol as [|s0 sol]; [contradiction|].
  apply (Last_intro a' (state_attr x) l v E).
  { destruct l; [discriminate L|discriminate]. }
  rewrite N by (rewrite L; simpl; lia). rewrite L.
  rewrite (last_nth (s0 :: sol) [] Hne). unfold env0.
  rewrite (cs_sample o m vdc _ _ Hlast i x Hi). exact Hv.
Qed.
Lemma full_states {V} (o : ops V) m d g ts sol (a a' : attrs V) :
  sol <> [] -> List.length sol = List.length ts -> (forall r, In r sol -> List.length r = n_ODE m) ->
  collect_full o m d g ts sol a = Ok a' -> states_last m a' (last sol []).
Proof.
  intros Hne Hts Hr Hx. split; [apply Hr; now apply nth_in_last|].
  intros i x Hi Hk.
  destruct (all_check o m d g) as (kn & Hc & _).
  destruct (exec_all_sound o ts sol (List.length ts) (n_ODE m) Hts Hr
              (all_steps o m d g) a env0 [] kn) as (a2 & X & H & F); auto.
  { intros ? []. }
  rewrite collect_full_all in Hx. assert (a2 = a') as -> by congruence.
  destruct (H (state_attr x)) as (l & E & L & N).
  { apply (all_check_states o m d g kn Hc). apply in_map. eapply nth_error_In; eauto. }
  assert (Hlast : List.length (last sol []) = n_ODE m) by (apply Hr; now apply nth_in_last).
  destruct (nth_error_lt (last sol []) i) as [v Hv].
  { rewrite Hlast. apply in_index in Hi. now rewrite spec_states_len in Hi. }
  exists v. split; auto. destruct sol as [|s0 sol]; [contradiction|].
  apply (Last_intro a' (state_attr x) l v E).
  { destruct l; [rewrite <- Hts in L; discriminate L|discriminate]. }
  rewrite N by (rewrite L, <- Hts; simpl; lia). rewrite L, <- Hts.
  rewrite (last_nth (s0 :: sol) [] Hne). unfold env0.
  rewrite (state_sample o m d g _ _ Hlast i x Hi). exact Hv.
Qed.
Lemma iy_states {V} (o : ops V) m vdc y (a a' : attrs V) :
  List.length y = n_ODE m -> exec_all o [] [y] (iy_steps o m vdc) a = Ok a' ->
  sim_y0 m a' = Ok y.
Proof.
  intros Hy Hx. destruct (iy_sound o m vdc y a Hy) as (a2 & kn & Hc & X & H & F).
  assert (a2 = a') as -> by congruence. unfold sim_y0.
  apply mapM_nth. { rewrite iy_attrs, map_length, spec_states_len. exact Hy. }
  intros i x Hi. destruct (nth_error_lt y i) as [v Hv].
  { rewrite Hy, <- spec_states_len, <- (map_length (iy_attr m)), <- iy_attrs. now apply in_index in Hi. }
  exists v. split; auto.
  destruct (H x) as (l & E & L & N).
  { apply (iy_check_states o m vdc kn Hc). eapply nth_error_In; eauto. }
  apply (Last_intro a' x l v E). { destruct l; discriminate. }
  rewrite L. rewrite N by lia. change (nth_error [y] (1 - 1)) with (Some y). unfold env0. rewrite (iy_sample o m vdc _ y Hy i x Hi). exact Hv.
Qed.

(** ** The stored series *)
Record Inv {V} (o : ops V) (m : mtype) (d0 : der V) (ivs : list (interval V)) (s : sim V) : Prop := {
  inv_typ : typ s = m;
  inv_lm : loop_mode s = true;
  inv_cs : collect_sol s = true;
  inv_u : forall k, In k (append_list m) -> exists u, at_ s (under k) = Some u /\
    (ivs <> [] -> u = A1 (flat u)) /\
    (In k (traj_list m) -> List.map Some (flat u) = Some (spec_initial d0 k) :: new_samples o m k ivs);
  inv_t : exists u, ut_ s = Some u /\ (ivs <> [] -> u = A1 (flat u)) /\ flat u = 0 :: new_times ivs
}.

Lemma tl_map {A B} (f : A -> B) l : List.tl (List.map f l) = List.map f (List.tl l).
Proof. destruct l; reflexivity. Qed.

Lemma samples_list {V} (o : ops V) m d g ts sol k (l : list V) :
  List.length sol = List.length ts -> List.length l = List.length ts ->
  (forall r, In r sol -> List.length r = n_ODE m) -> In k (traj_list m) ->
  (forall j, (j < List.length ts)%nat -> nth_error l j =
     sexec_all o (nth_error ts j) (nth_error sol j) (all_steps o m d g) (env0 j) k) ->
  List.map Some l = List.map (fun p => spec_sample o m d g (fst p) (snd p) k) (combine ts sol).
Proof.
  intros H1 H2 Hr Hk N. apply nth_error_ext.
  { rewrite !map_length, combine_length. lia. }
  intros j Hj. rewrite map_length in Hj. rewrite !nth_error_map, nth_error_combine, N by lia.
  destruct (nth_error_lt ts j) as [t Et]; [lia|]. destruct (nth_error_lt sol j) as [r Er]; [lia|].
  rewrite Et, Er. cbn [option_map fst snd].
  assert (Hlr : List.length r = n_ODE m) by (apply Hr; eapply nth_error_In; eauto).
  pose proof (N j ltac:(lia)) as Nj. rewrite Et, Er in Nj.
  unfold env0 in *. rewrite (sample_eq o m d g t r k Hlr Hk) in *.
  destruct (nth_error_lt l j) as [v Ev]; [lia|]. rewrite Ev in Nj. now rewrite <- Nj.
Qed.

Lemma new_samples_app {V} (o : ops V) m k (a b : list (interval V)) :
  new_samples o m k (a ++ b)%list = (new_samples o m k a ++ new_samples o m k b)%list.
Proof. unfold new_samples. apply flat_map_app. Qed.
Lemma new_times_app {V} (a b : list (interval V)) :
  new_times (a ++ b)%list = (new_times a ++ new_times b)%list.
Proof. unfold new_times. apply flat_map_app. Qed.
Lemma last_row_snoc {V} (ivs : list (interval V)) iv : last_row (ivs ++ [iv])%list = last (i_sol iv) [].
Proof. unfold last_row. rewrite rev_app_distr. reflexivity. Qed.

Lemma state_not_under m x i : nth_error (spec_states m) i = Some x -> ~ In (state_attr x) (List.map under (append_list m)).
Proof.
  intros Hx C. apply in_map_iff in C. destruct C as (k & C & Hk).
  pose proof (under_prefix k) as P. rewrite C in P.
  assert (Q : forallb (fun x => negb (String.prefix "_" (state_attr x))) (spec_states m) = true) by (destruct m; reflexivity).
  rewrite forallb_forall in Q. apply nth_error_In in Hx. apply Q in Hx. rewrite P in Hx. discriminate.
Qed.
Lemma vf_not_under l : ~ In "Vrms_filter" (List.map under l).
Proof. intros C. apply in_map_iff in C. destruct C as (k & C & Hk). unfold under in C. discriminate. Qed.

Lemma states_last_ext {V} m (a a' : attrs V) r :
  (forall i x, nth_error (spec_states m) i = Some x -> kept m i -> a' (state_attr x) = a (state_attr x)) ->
  states_last m a r -> states_last m a' r.
Proof.
  intros He [Hl H]. split; auto. intros i x Hx Hk. destruct (H i x Hx Hk) as (v & ? & HL). exists v. split; auto.
  unfold Last, aget in *. now rewrite (He i x Hx Hk).
Qed.

Lemma Inv_run {V} (o : ops V) m d0 ivs iv s : Inv o m d0 ivs s -> wf_interval m iv ->
  exists s', finish_run o (i_d iv) (i_g iv) (i_sol iv) (i_t iv) s = Ok s' /\
    Inv o m d0 (ivs ++ [iv])%list s' /\ states_last m (at_ s') (last (i_sol iv) []) /\
    at_ s' "Vrms_filter" = at_ s "Vrms_filter".
Proof.
  intros [It Il Ic Iu (ut & Et & Et1 & Et2)] (Hne & Hlen & Hrow).
  destruct (full_sound o m (i_d iv) (i_g iv) (i_t iv) (i_sol iv) (at_ s) Hlen Hrow) as (a1 & X & H & F).
  assert (U : forall k, In k (append_list m) -> a1 (under k) = at_ s (under k)).
  { intros k Hk. apply F. now apply under_not_written. }
  destruct (append_all_ok (append_list m) (append_nodup m) (append_under m) a1) as (a2 & X2 & G1 & G2).
  { intros k Hk. destruct (Iu k Hk) as (u & Eu & _). destruct (H k Hk) as (l & El & _).
    exists u, l. rewrite U by auto. auto. }
  unfold finish_run, collect_results. rewrite Ic, Il, It, X. cbn [bindR]. rewrite Et. cbn [bindR].
  unfold collect_last. rewrite X2. cbn [bindR]. eexists; split; [reflexivity|].
  assert (Hsol : i_sol iv <> []).
  { intros C. rewrite C in Hlen. destruct (i_t iv); [contradiction|discriminate]. }
  split; [|split].
  - split; cbn [typ loop_mode collect_sol at_ ut_]; auto.
    + intros k Hk. destruct (Iu k Hk) as (u & Eu & _ & Es). destruct (H k Hk) as (l & El & Ll & Nl).
      rewrite (G1 k u l Hk) by (rewrite ?U; auto). rewrite flat_append.
      eexists; split; [reflexivity|]. split; [reflexivity|]. intros Hk'. cbn [flat].
      rewrite map_app, new_samples_app, Es by auto. cbn [app]. f_equal. f_equal.
      unfold new_samples. cbn [flat_map]. rewrite app_nil_r, <- tl_map. f_equal.
      apply samples_list; auto.
    + exists (A1 (flat ut ++ tl (i_t iv))%list). rewrite flat_append. split; [reflexivity|]. split; [reflexivity|].
      cbn [flat]. rewrite Et2, new_times_app.
      assert (E1 : new_times [iv] = tl (i_t iv)) by (unfold new_times; cbn [flat_map]; apply app_nil_r).
      now rewrite E1.
  - cbn [at_]. apply (states_last_ext m a1); [|eapply full_states; eauto].
    intros i x Hx _. apply G2. eapply state_not_under; eauto.
  - cbn [at_]. rewrite G2 by apply vf_not_under. apply F.
    apply not_inb. unfold all_steps, ft_steps, ft_v, cs_steps. destruct m, (d_alone (i_d iv)); reflexivity.
Qed.

Lemma Vdc_in m : In "Vdc_t" (append_list m).
Proof. destruct m; simpl; auto. Qed.

Lemma invert_states m i x : nth_error (spec_states m) i = Some x -> kept m i -> x <> "Vdc" ->
  ~ In (state_attr x) (invert_list m).
Proof.
  intros Hx Hk Hv C.
  assert (Q : forallb (fun x => String.eqb x "Vdc" || String.eqb x "Vrms_filter" || negb (inb (state_attr x) (invert_list m))) (spec_states m) = true)
    by (destruct m; reflexivity).
  rewrite forallb_forall in Q. pose proof (nth_error_In _ _ Hx) as Hin. apply Q in Hin.
  apply inb_In in C. rewrite C in Hin. simpl in Hin. rewrite orb_false_r in Hin.
  apply orb_true_iff in Hin. destruct Hin as [E|E]; apply String.eqb_eq in E; subst x; [contradiction|].
  assert (Hm : m = MThree /\ i = 23%nat).
  { destruct m; do 24 (destruct i as [|i]; [solve [discriminate Hx | auto]|]); destruct i; discriminate Hx. }
  destruct Hm as [-> ->]. now apply Hk.
Qed.

Lemma In_mapM_pair {V} (a : attrs V) l :
  (forall k, In k l -> exists v, a k = Some v) ->
  exists r, mapM (fun k => bindR (aget a k) (fun v => Ok (k, v))) l = Ok r /\
    List.map fst r = l /\ forall k v, In (k, v) r -> a k = Some v.
Proof.
  induction l as [|k l IH]; intros H.
  - exists []. repeat split; auto. intros ? ? [].
  - destruct (H k) as [v Hv]; [now left|]. destruct IH as (r & Hr & Hf & Hi); [intros; apply H; now right|].
    exists ((k, v) :: r). simpl. unfold aget at 1. rewrite Hv. simpl. rewrite Hr. simpl. repeat split; auto.
    + now rewrite Hf.
    + intros k' v' [[= <- <-]|Hin]; auto.
Qed.
Lemma mapM_len {V} n (r : list (string * arr V)) :
  (forall k v, In (k, v) r -> exists l, v = A1 l /\ List.length l = n) ->
  mapM (fun p : string * arr V => bindR (a_len (snd p)) (fun n' => if Nat.eqb n n' then Ok tt else Raise AssertionError)) r
    = Ok (List.map (fun _ => tt) r).
Proof.
  induction r as [|[k v] r IH]; intros H; auto. simpl.
  destruct (H k v) as (l & -> & L); [now left|]. simpl. rewrite L, Nat.eqb_refl. simpl.
  rewrite IH; auto. intros; eapply H; right; eauto.
Qed.

Lemma new_len {V} (o : ops V) m k ivs : Forall (wf_interval m) ivs ->
  List.length (new_samples o m k ivs) = List.length (new_times ivs).
Proof.
  intros H. unfold new_samples, new_times. induction ivs as [|iv ivs IH]; auto.
  inversion H as [|? ? (A & B & C) Hr]; subst. cbn [flat_map]. rewrite !app_length, IH by auto. f_equal.
  rewrite tl_map, map_length. destruct (i_t iv) as [|t ts], (i_sol iv) as [|r rs]; simpl in *; try congruence; try contradiction.
  rewrite combine_length. lia.
Qed.

Lemma Inv_get {V} (o : ops V) m d0 ivs s : Inv o m d0 ivs s -> ivs <> [] -> Forall (wf_interval m) ivs ->
  exists s' trs, get_trajectories s = (s', Ok trs) /\ Inv o m d0 ivs s' /\
    List.map fst trs = traj_list m /\
    tt_ s' = Some (A1 (0 :: new_times ivs)) /\
    (forall k v, In (k, v) trs -> exists l, v = A1 l /\
       List.map Some l = Some (spec_initial d0 k) :: new_samples o m k ivs) /\
    (forall k, In k (invert_list m) -> at_ s' k = at_ s (under k)) /\
    (forall k, ~ In k (invert_list m) -> at_ s' k = at_ s k) /\ ut_ s' = ut_ s.
Proof.
  intros [It Il Ic Iu (ut & Et & Et1 & Et2)] Hne Hwf. unfold get_trajectories. rewrite Il, It.
  destruct (@invert_ok V (invert_list m)) with (a := at_ s) as (a' & X & H1 & H2).
  { intros k k' Hk Hk'. apply append_invert in Hk. apply append_invert in Hk'. eapply append_under; eauto. }
  { intros k Hk. apply append_invert in Hk. destruct (Iu k Hk) as (u & Eu & _). eauto. }
  rewrite X. cbn [at_ tt_ bindR].
  assert (Hn : forall k, In k (append_list m) -> ~ In (under k) (invert_list m)).
  { intros k Hk C. apply append_invert in C. revert C. intros C. apply (append_under m k (under k)); auto. }
  destruct (In_mapM_pair a' (traj_list m)) as (r & Er & Hf & Hi).
  { intros k Hk. apply traj_append in Hk. rewrite H1 by (now apply append_invert).
    destruct (Iu k Hk) as (u & Eu & _). eauto. }
  assert (Hl : forall k v, In (k, v) r -> exists l, v = A1 l /\
       List.map Some l = Some (spec_initial d0 k) :: new_samples o m k ivs).
  { intros k v Hin. pose proof (Hi k v Hin) as E.
    assert (Hk : In k (traj_list m)) by (rewrite <- Hf; apply (in_map fst) in Hin; exact Hin).
    pose proof (traj_append m k Hk) as Hk'. rewrite H1 in E by (now apply append_invert).
    destruct (Iu k Hk') as (u & Eu & E1 & E2). exists (flat u). split.
    - rewrite <- E1 by auto. congruence. - auto. }
  rewrite Et. rewrite Er. cbn [bindR]. rewrite (Et1 Hne). cbn [a_len bindR].
  rewrite (mapM_len (List.length (flat ut)) r).
  2:{ intros k v Hin. destruct (Hl k v Hin) as (l & -> & El). exists l. split; auto.
      apply (f_equal (@List.length _)) in El. rewrite map_length in El. simpl in El.
      rewrite El, Et2. simpl. f_equal. now apply new_len. }
  cbn [bindR]. eexists _, r. split; [reflexivity|]. repeat split; cbn [typ loop_mode collect_sol at_ ut_ tt_]; auto.
  - intros k Hk. destruct (Iu k Hk) as (u & Eu & E1 & E2). exists u. rewrite H2 by (now apply Hn). auto.
  - exists ut. rewrite <- (Et1 Hne). auto.
  - now rewrite Et2.
Qed.

(** ** Construction *)
Lemma reset_get {V} (d : der V) l : (forall k k', In k (List.map fst l) -> In k' (List.map fst l) -> under k <> k') ->
  forall a k q, NoDup (List.map fst l) -> In (k, q) l ->
  fold_left (fun a p => aset (fst p) (A0 (d_misc d (snd p))) (aset (under (fst p)) (A0 (d_misc d (snd p))) a)) l a (under k)
   = Some (A0 (d_misc d q)).
Proof.
  induction l as [|[k0 q0] l IH]; intros Hu a k q ND Hin; [destruct Hin|].
  inversion ND as [|? ? Hn ND']; subst. cbn [fold_left]. destruct Hin as [[= -> ->]|Hin].
  - cbn [fst snd].
    assert (G : forall l0 (b : attrs V), (forall p, In p l0 -> In p l) -> b (under k) = Some (A0 (d_misc d q)) ->
      fold_left (fun a p => aset (fst p) (A0 (d_misc d (snd p))) (aset (under (fst p)) (A0 (d_misc d (snd p))) a)) l0 b (under k)
      = Some (A0 (d_misc d q))).
    { induction l0 as [|[k1 q1] l0 IH0]; intros b Hs Hb; auto. cbn [fold_left fst snd]. apply IH0.
      { intros; apply Hs; now right. }
      assert (H1 : In k1 (List.map fst l)) by (apply (in_map fst l (k1, q1)); apply Hs; now left).
      rewrite !aset_neq; auto.
      - intros C. apply under_inj in C. subst. contradiction.
      - intros C. symmetry in C. revert C. apply Hu; simpl; auto. }
    apply G; auto. rewrite aset_neq, aset_eq; auto.
    intros C. symmetry in C. revert C. apply Hu; simpl; auto.
  - apply IH; auto. intros; apply Hu; simpl; auto.
Qed.
Lemma reset_nodup m : NoDup (List.map fst (reset_list m)).
Proof. apply nodupb_ok. destruct m; reflexivity. Qed.
Lemma reset_under {V} m (d : der V) a k q : In (k, q) (reset_list m) ->
  reset_stored m d a (under k) = Some (A0 (d_misc d q)).
Proof.
  intros H. unfold reset_stored. apply reset_get; auto.
  - intros k0 k' H0 H1. apply reset_append in H0. apply reset_append in H1. eapply append_under; eauto.
  - apply reset_nodup.
Qed.
Definition base_name (k : string) : string := String.substring 0 (String.length k - 2) k.
Lemma reset_traj m k : In k (traj_list m) -> In (k, base_name k) (reset_list m).
Proof.
  intros Hk.
  assert (Q : forallb (fun k => existsb (fun p => String.eqb k (fst p) && String.eqb (base_name k) (snd p)) (reset_list m)) (traj_list m) = true)
    by (destruct m; reflexivity).
  rewrite forallb_forall in Q. apply Q in Hk. apply existsb_exists in Hk.
  destruct Hk as ([k1 q1] & Hin & E). simpl in E. apply andb_true_iff in E. destruct E as [E1 E2].
  apply String.eqb_eq in E1. apply String.eqb_eq in E2. now subst.
Qed.

Lemma der_y0_len {V} m (st : dstate V) y : der_y0 m st = Ok y -> List.length y = n_ODE m.
Proof.
  unfold der_y0. assert (G : forall l y, mapM (fun n => match st n with Some v => Ok v | None => Raise AttributeError end) l = Ok y ->
    List.length y = List.length l).
  { induction l as [|a l IH]; simpl; intros y0 H. - now injection H as <-.
    - destruct (st a); [|discriminate]. simpl in H. destruct (mapM _ l) eqn:E; [|discriminate]. simpl in H.
      injection H as <-. simpl. f_equal. now apply IH. }
  intros H. rewrite (G _ _ H). destruct m; reflexivity.
Qed.

Lemma make_ok {V} (o : ops V) m (d : der V) ts lm cs y : der_y0 m (d_state d) = Ok y ->
  exists s0, make_sim o m d ts lm cs = Ok s0 /\ sim_y0 m (at_ s0) = Ok y /\
   typ s0 = m /\ loop_mode s0 = lm /\ collect_sol s0 = cs /\ tv s0 = ts /\
   (lm = true -> cs = true -> Inv o m d [] s0) /\
   (lm = true -> ut_ s0 = Some (A0 0) /\ forall k q, In (k, q) (reset_list m) -> at_ s0 (under k) = Some (A0 (d_misc d q))).
Proof.
  intros Hy. pose proof (der_y0_len m _ y Hy) as Hlen. unfold make_sim, initialize_y0_t. rewrite Hy. cbn [bindR].
  set (a0 := if lm then reset_stored m d (fun _ => None) else (fun _ => None)).
  destruct (iy_sound o m (d_vdc d) y a0 Hlen) as (a' & kn & Hc & X & H & F). rewrite X. cbn [bindR].
  eexists; split; [reflexivity|]. cbn [at_ typ loop_mode collect_sol tv ut_].
  split; [eapply iy_states; eauto|]. repeat (split; [reflexivity|]).
  assert (U : forall k q, lm = true -> In (k, q) (reset_list m) -> a' (under k) = Some (A0 (d_misc d q))).
  { intros k q Hlm Hin. rewrite F.
    - unfold a0. rewrite Hlm. now apply reset_under.
    - apply not_inb.
      assert (Hk : In k (append_list m)) by (apply reset_append; apply (in_map fst _ _ Hin)).
      assert (Q : forallb (fun k => negb (inb (under k) (flat_map writes (iy_steps o m (d_vdc d))))) (append_list m) = true)
        by (unfold iy_steps; destruct m; reflexivity).
      rewrite forallb_forall in Q. apply Q in Hk. now destruct (inb _ _). }
  split.
  - intros Hlm Hcs. rewrite Hlm, Hcs in *. split; cbn [typ loop_mode collect_sol at_ ut_]; auto.
    + intros k Hk. destruct (in_map_iff fst (reset_list m) k) as [G _].
      destruct G as ([k1 q] & Ek & Hin); [now apply reset_append|]. simpl in Ek. subst k1.
      exists (A0 (d_misc d q)). rewrite (U k q); auto. split; auto. split; [contradiction|].
      intros Ht. pose proof (reset_traj m k Ht) as Hin'. pose proof (U k q eq_refl Hin) as E1.
      rewrite (U k _ eq_refl Hin') in E1. injection E1 as E1.
      simpl. unfold spec_initial. fold (base_name k). now rewrite E1.
    + exists (A0 0). split; auto. split; [contradiction|]. reflexivity.
  - intros Hlm. rewrite Hlm. auto.
Qed.
