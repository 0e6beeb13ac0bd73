(** Property C107: the listing of a schedule. *)
From Coq Require Import String Permutation.
From Verif Require Import Base EventsModel EventsSpec EventsProofs EventsProperties EventsShow.

(** time and kind of a listed event; events at one time are listed solar, grid, load *)
Definition when (l : line) : Q := match l with SolarLine T _ _ => T | GridLine T _ _ _ => T | LoadLine T _ _ => T | _ => 0 end.
Definition rank (l : line) : nat := match l with SolarLine _ _ _ => 0 | GridLine _ _ _ _ => 1 | _ => 2 end.
Definition listed_before (a b : line) : Prop := when a < when b \/ (when a == when b /\ (rank a < rank b)%nat).
Definition all_lines (s : events) : list line :=
  List.map (fun e => SolarLine (eT e) (Sinsol (eV e)) (Tactual (eV e))) (items (solar s)) ++
  List.map (fun e => GridLine (eT e) (Vgrid (eV e)) (Vangle (eV e)) (fgrid (eV e))) (items (grid s)) ++
  List.map (fun e => LoadLine (eT e) (Zre (eV e)) (Zim (eV e))) (items (load s)).

Definition line_of (e : ev payload) : line :=
  match eV e with
  | PSolar v => SolarLine (eT e) (Sinsol v) (Tactual v)
  | PGrid v => GridLine (eT e) (Vgrid v) (Vangle v) (fgrid v)
  | PLoad v => LoadLine (eT e) (Zre v) (Zim v)
  end.
Lemma show_lines l : List.fold_right show_event (Ok []) l = Ok (List.map line_of l).
Proof.
  induction l as [|[T p] l IH]; [reflexivity|]. cbn [List.fold_right List.map]. rewrite IH. destruct p; reflexivity.
Qed.
Lemma ins_perm {A} (x : ev A) l : Permutation (ins_sorted x l) (x :: l).
Proof.
  induction l as [|y l IH]; cbn [ins_sorted]; [reflexivity|]. destruct (qle _ _); [reflexivity|].
  rewrite IH. apply perm_swap.
Qed.
Lemma sort_perm {A} (l : list (ev A)) : Permutation (sort_T l) l.
Proof. induction l as [|x l IH]; cbn [sort_T]; [reflexivity|]. rewrite ins_perm. now constructor. Qed.

Definition bef (a b : ev payload) : Prop := listed_before (line_of a) (line_of b).
Lemma when_line e : when (line_of e) = eT e.
Proof. destruct e as [T []]; reflexivity. Qed.
Lemma bef_trans a b c : bef a b -> bef b c -> bef a c.
Proof. unfold bef, listed_before. intros [H|[H H']] [K|[K K']]; [left; lra|left; lra|left; lra|right; split; [lra|lia]]. Qed.
(** inserting, in front of a sorted list, an element that comes before every
    element at the same time *)
Lemma ins_bef x l : StronglySorted bef l -> (forall y, In y l -> eT x == eT y -> bef x y) -> StronglySorted bef (ins_sorted x l).
Proof.
  induction l as [|y l IH]; intros H Hx; cbn [ins_sorted]; [repeat constructor|].
  inversion H as [|? ? Hl Hy]; subst.
  destruct (qle (eT x) (eT y)) eqn:E.
  - apply qle_iff in E.
    assert (B : bef x y).
    { destruct (Qlt_le_dec (eT x) (eT y)) as [L|L]; [left; now rewrite !when_line|]. apply Hx; [now left|lra]. }
    constructor; [assumption|]. constructor; [exact B|].
    rewrite Forall_forall in *. intros z Hz. eapply bef_trans; [exact B|]. now apply Hy.
  - apply qle_false in E. constructor.
    + apply IH; auto. intros z Hz. apply Hx. now right.
    + rewrite Forall_forall in *. intros z Hz. apply (Permutation_in _ (ins_perm x l)) in Hz. destruct Hz as [<-|Hz]; [|now apply Hy].
      left. rewrite !when_line. exact E.
Qed.
(** pairwise order, in list order, of the elements at equal times *)
Definition ties (l : list (ev payload)) : Prop := StronglySorted (fun a b => eT a == eT b -> bef a b) l.
Lemma sort_bef l : ties l -> StronglySorted bef (sort_T l).
Proof.
  induction l as [|x l IH]; intros H; cbn [sort_T]; [constructor|]. inversion H as [|? ? Hl Hx]; subst.
  apply ins_bef; [now apply IH|]. intros y Hy. apply (Permutation_in _ (sort_perm l)) in Hy.
  rewrite Forall_forall in Hx. now apply Hx.
Qed.
Lemma ties_app l1 l2 : ties l1 -> ties l2 -> (forall a b, In a l1 -> In b l2 -> eT a == eT b -> bef a b) -> ties (l1 ++ l2).
Proof.
  unfold ties. induction l1 as [|x l1 IH]; intros H1 H2 H; [exact H2|]. cbn [app]. inversion H1 as [|? ? Hl Hx]; subst.
  constructor; [apply IH; auto; intros; apply H; auto; now right|]. rewrite Forall_forall in *. intros z Hz.
  apply in_app_or in Hz as [Hz|Hz]; [now apply Hx|]. apply H; auto. now left.
Qed.
Lemma ties_map {A} (f : A -> payload) l : increasing l -> ties (List.map (tag f) l).
Proof.
  unfold ties, increasing. induction l as [|x l IH]; intros H; [constructor|]. inversion H as [|? ? Hl Hx]; subst. cbn [List.map].
  constructor; [now apply IH|]. rewrite Forall_forall in *. intros z Hz. apply in_map_iff in Hz as (y & <- & Hy).
  specialize (Hx y Hy). cbn. intros E. lra.
Qed.

(** For every schedule reachable by any API calls, show_events succeeds; it prints
    the numbers of solar and grid events, then one line for every scheduled event
    and nothing else, in order of time (solar before grid before load at equal
    times), or "No simulation events" exactly when nothing is scheduled. *)
Theorem C107_listing :
  forall s, reachable s ->
  exists body, show_events s = Ok (Totals (length (items (solar s))) (length (items (grid s))) :: body) /\
    (all_lines s = [] -> body = [NoEvents]) /\
    (all_lines s <> [] -> Permutation body (all_lines s) /\ StronglySorted listed_before body).
Proof.
  intros s Hr. destruct (C01_schedules_sorted_unique_in_range s Hr) as (H1 & H2 & H3 & _).
  assert (P : Permutation (List.map line_of (simulation_events_list s)) (all_lines s)).
  { unfold simulation_events_list. rewrite sort_perm. rewrite !map_app, !map_map. apply Permutation_refl. }
  unfold show_events. destruct (simulation_events_list s) as [|e l] eqn:E.
  - exists [NoEvents]. split; [reflexivity|]. split; [reflexivity|]. intros N. exfalso. apply N. now apply Permutation_nil.
  - rewrite <- E in *. exists (List.map line_of (simulation_events_list s)).
    replace (match simulation_events_list s with [] => Ok [NoEvents] | _ :: _ => List.fold_right show_event (Ok []) (simulation_events_list s) end)
      with (List.fold_right show_event (Ok []) (simulation_events_list s)) by (rewrite E; reflexivity).
    rewrite show_lines. split; [reflexivity|]. split.
    + intros N. rewrite N in P. apply Permutation_sym, Permutation_nil in P. rewrite E in P. discriminate.
    + intros _. split; [exact P|].
      assert (B : StronglySorted bef (simulation_events_list s)).
      { unfold simulation_events_list. apply sort_bef. apply ties_app; [now apply ties_map| |].
        - apply ties_app; [now apply ties_map|now apply ties_map|].
          intros a b Ha Hb Hab. apply in_map_iff in Ha as (x & <- & _), Hb as (y & <- & _). right. split; [exact Hab|cbn; lia].
        - intros a b Ha Hb Hab. apply in_map_iff in Ha as (x & <- & _). apply in_app_or in Hb as [Hb|Hb]; apply in_map_iff in Hb as (y & <- & _); right; (split; [exact Hab|cbn; lia]). }
      clear - B. induction B as [|e l Hl IH Hx]; [constructor|]. cbn [List.map]. constructor; [exact IH|].
      rewrite Forall_forall in *. intros z Hz. apply in_map_iff in Hz as (y & <- & Hy). now apply Hx.
Qed.
Print Assumptions C107_listing.
(** No event is listed twice: no two lines of one kind at the same time. *)
Theorem C107_no_duplicates :
  forall s body, reachable s -> show_events s = Ok body ->
  StronglySorted (fun a b => ~ (when a == when b /\ rank a = rank b)) (tl body).
Proof.
  intros s body Hr H. destruct (C107_listing s Hr) as (b & E & N & L). rewrite H in E. injection E as ->. cbn [tl].
  destruct (all_lines s) as [|x l] eqn:A.
  - rewrite N by reflexivity. repeat constructor.
  - destruct L as [_ L]; [discriminate|]. clear - L. induction L as [|y l Hl IH Hx]; [constructor|]. constructor; [exact IH|].
    rewrite Forall_forall in *. intros z Hz [K1 K2]. destruct (Hx z Hz) as [K|[K K']]; [lra|lia].
Qed.
Print Assumptions C107_no_duplicates.

Example C107_hypotheses_met :
  let s := fst (run (init_events default_spec true true true true)
    [OAddGrid 3 (9#10) 0 60; OAddSolar 3 90 300; OAddLoad 1 5 0; OAddSolar 2 80 300; OAddGrid 3 (8#10) 0 60]) in
  reachable s /\
  show_events s = Ok [Totals 2 1; LoadLine 1 5 0; SolarLine 2 80 300; SolarLine 3 90 300; GridLine 3 (8#10) 0 60] /\
  show_events (init_events default_spec true true true true) = Ok [Totals 0 0; NoEvents].
Proof. cbv zeta. split; [|split; vm_compute; reflexivity]. do 6 eexists. reflexivity. Qed.
