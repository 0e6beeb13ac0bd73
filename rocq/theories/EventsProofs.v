(** Proofs about the SimulationEvents object. *)
From Verif Require Import Base EventsModel EventsSpec TimedLemmas QueryLemmas.

Lemma solarV_refl a : solarV_eqb a a = true.
Proof. unfold solarV_eqb. rewrite !(proj2 (qeq_iff _ _)); reflexivity. Qed.
Lemma gridV_refl a : gridV_eqb a a = true.
Proof. unfold gridV_eqb. rewrite !(proj2 (qeq_iff _ _)); reflexivity. Qed.
Lemma loadV_refl a : loadV_eqb a a = true.
Proof. unfold loadV_eqb. rewrite !(proj2 (qeq_iff _ _)); reflexivity. Qed.

(** ** The object invariant *)
Record Inv (s : events) : Prop := {
  inv_sched : schedules_ok s;
  inv_ts : items (solar s) <> [] -> total (solar s) = len (items (solar s));
  inv_tg : items (grid s) <> [] -> total (grid s) = len (items (grid s));
  inv_tl : items (load s) <> [] -> total (load s) = len (items (load s));
  inv_cs : (0 <= counter (solar s))%Z;
  inv_cg : (0 <= counter (grid s))%Z;
  inv_cl : (0 <= counter (load s))%Z }.

Lemma Inv_init sp ov a b c : Inv (init_events sp ov a b c).
Proof.
  constructor; simpl; try congruence; try lia.
  unfold schedules_ok; simpl. repeat (split; [solve [apply SSorted_nil | tauto]|]). tauto.
Qed.

Lemma len_pos {A} (l : list A) : l <> [] -> (1 <= len l)%Z.
Proof. destruct l; [congruence|]. unfold len. simpl. lia. Qed.

Lemma Inv_update_totals s : Inv s -> Inv (update_totals s).
Proof. intros [H Hs Hg Hl Cs Cg Cl]. constructor; simpl; auto; try (intros _; reflexivity). Qed.

Lemma add_solar_inv s T si K : Inv s -> Inv (fst (add_solar_event s T si K)).
Proof.
  intros HI. unfold add_solar_event.
  destruct (qlt si _ || qlt _ si)%bool eqn:E1; auto.
  destruct (qlt 375 K || qlt K 250)%bool eqn:E2; auto.
  simpl. qb. destruct HI as [(I1 & I2 & I3 & R1 & R2 & R3) Hs Hg Hl Cs Cg Cl].
  constructor; simpl; auto. unfold schedules_ok; simpl.
  repeat (split; [solve [auto | apply insert_event_increasing; auto; apply solarV_refl]|]).
  split; auto. intros e He. rewrite insert_event_In in He by (auto; apply solarV_refl).
  destruct He as [->|[He _]]; [unfold solar_ok; simpl; lra|auto].
Qed.

Lemma add_grid_inv s T V a f : Inv s -> Inv (fst (add_grid_event s T V a f)).
Proof.
  intros HI. unfold add_grid_event.
  destruct (qlt V _ || qlt _ V)%bool eqn:E1; auto.
  destruct (qlt f _ || qlt _ f)%bool eqn:E2; auto.
  simpl. qb. destruct HI as [(I1 & I2 & I3 & R1 & R2 & R3) Hs Hg Hl Cs Cg Cl].
  constructor; simpl; auto. unfold schedules_ok; simpl.
  repeat (split; [solve [auto | apply insert_event_increasing; auto; apply gridV_refl]|]).
  split; auto. intros e He. rewrite insert_event_In in He by (auto; apply gridV_refl).
  destruct He as [->|[He _]]; [unfold grid_ok; simpl; lra|auto].
Qed.

Lemma add_load_inv s T zr zi : Inv s -> Inv (fst (add_load_event s T zr zi)).
Proof.
  intros HI. unfold add_load_event.
  destruct (qlt zr 0) eqn:E1; auto.
  simpl. qb. destruct HI as [(I1 & I2 & I3 & R1 & R2 & R3) Hs Hg Hl Cs Cg Cl].
  constructor; simpl; auto.
  unfold schedules_ok; simpl. repeat (split; [solve [auto | apply insert_event_increasing; auto; apply loadV_refl]|]).
  intros e He. rewrite insert_event_In in He by (auto; apply loadV_refl).
  destruct He as [->|[He _]]; simpl; auto.
Qed.

Lemma remove_grid_inv s T : Inv s -> Inv (fst (remove_grid_event s T)).
Proof.
  intros HI. unfold remove_grid_event. simpl.
  destruct HI as [(I1 & I2 & I3 & R1 & R2 & R3) Hs Hg Hl Cs Cg Cl].
  constructor; simpl; auto. unfold schedules_ok; simpl.
  rewrite remove_at_spec by (auto; apply gridV_refl).
  repeat (split; [solve [auto | apply keep_increasing; auto]|]).
  split; auto. intros e He. apply keep_In in He. apply R2. tauto.
Qed.

Lemma remove_load_inv s T all : Inv s -> Inv (fst (remove_load_event s T all)).
Proof.
  intros HI. unfold remove_load_event.
  destruct HI as [(I1 & I2 & I3 & R1 & R2 & R3) Hs Hg Hl Cs Cg Cl].
  assert (Hclear : Inv (set_load s (Sched [] (total (load s)) (counter (load s))))).
  { constructor; simpl; auto; try congruence. unfold schedules_ok; simpl.
    repeat (split; [solve [auto | constructor]|]). tauto. }
  destruct all; simpl; auto. destruct T as [T|]; simpl; auto.
  constructor; simpl; auto. unfold schedules_ok; simpl.
  rewrite remove_at_spec by (auto; apply loadV_refl).
  repeat (split; [solve [auto | apply keep_increasing; auto]|]).
  intros e He. apply keep_In in He. apply R3. tauto.
Qed.

Lemma remove_solar_inv s T all : Inv s -> Inv (fst (remove_solar_event s T all)).
Proof.
  intros HI. unfold remove_solar_event.
  assert (Hclear : Inv (set_solar s (Sched [] (total (solar s)) (counter (solar s))))).
  { destruct HI as [(I1 & I2 & I3 & R1 & R2 & R3) Hs Hg Hl Cs Cg Cl].
    constructor; simpl; auto; try congruence. unfold schedules_ok; simpl.
    repeat (split; [solve [auto | constructor]|]). split; [tauto|]. auto. }
  destruct all; simpl; auto. destruct T as [T|]; simpl; auto.
Qed.

Lemma query_sched_counter {A} (d : A) sc t :
  (0 <= counter sc)%Z -> (items sc <> [] -> total sc = len (items sc)) ->
  (0 <= counter (fst (query_sched d sc t)))%Z.
Proof.
  intros H0 Ht. unfold query_sched. destruct (items sc) eqn:E; auto.
  rewrite <- E in *. assert (Hp : (1 <= total sc)%Z).
  { rewrite Ht by congruence. apply len_pos. congruence. }
  repeat match goal with
  | |- context [if ?b then _ else _] => destruct b
  | |- context [match py_index ?l ?i with _ => _ end] => destruct (py_index l i)
  end; simpl; auto; lia.
Qed.

Lemma solar_query_inv s t : Inv s -> Inv (fst (solar_events s t)).
Proof.
  intros HI. unfold solar_events. destruct (solarEn s); auto.
  pose proof (query_items (SolarV (ins_default (espec s)) Tactual_default) (solar s) t) as [Hi Ht].
  pose proof (query_sched_counter (SolarV (ins_default (espec s)) Tactual_default) (solar s) t
                (inv_cs s HI) (inv_ts s HI)) as Hc.
  destruct (query_sched _ _ _) as [sc r]. simpl in *.
  destruct HI as [(I1 & I2 & I3 & R1 & R2 & R3) Hs Hg Hl Cs Cg Cl].
  constructor; simpl; auto; [|rewrite Hi, Ht; auto].
  unfold schedules_ok; simpl. rewrite Hi. auto 10.
Qed.

Lemma load_query_inv s t : Inv s -> Inv (fst (load_events s t)).
Proof.
  intros HI. unfold load_events. destruct (loadEn s); auto.
  pose proof (query_items Zload_default (load s) t) as [Hi Ht].
  pose proof (query_sched_counter Zload_default (load s) t (inv_cl s HI) (inv_tl s HI)) as Hc.
  destruct (query_sched _ _ _) as [sc r]. simpl in *.
  destruct HI as [(I1 & I2 & I3 & R1 & R2 & R3) Hs Hg Hl Cs Cg Cl].
  constructor; simpl; auto; [|rewrite Hi, Ht; auto].
  unfold schedules_ok; simpl. rewrite Hi. auto 10.
Qed.

Lemma advance_grid_inv s : Inv s -> items (grid s) <> [] -> Inv (advance_grid s).
Proof.
  intros HI Hne. destruct HI as [HS Hs Hg Hl Cs Cg Cl].
  constructor; simpl; auto.
  rewrite (Hg Hne). pose proof (len_pos _ Hne). lia.
Qed.

Lemma add_grid_nonempty s T V a f s' :
  Inv s -> add_grid_event s T V a f = (s', Ok tt) -> items (grid s') <> [].
Proof.
  intros HI. unfold add_grid_event.
  destruct (qlt V _ || qlt _ V)%bool; [discriminate|].
  destruct (qlt f _ || qlt _ f)%bool; [discriminate|].
  intros [= <-]. simpl. apply insert_length_pos; [apply gridV_refl|]. apply HI.
Qed.

Lemma grid_query_inv s t : Inv s -> Inv (fst (grid_events s t)).
Proof.
  intros HI. unfold grid_events, grid_events_at. destruct (gridEn s); simpl; auto.
  destruct (items (grid s)) as [|e0 l0] eqn:El; auto. rewrite <- El.
  assert (Hne : items (grid s) <> []) by congruence.
  assert (Hadd : forall T V a f v, Inv (fst
     match add_grid_event s T V a f with
     | (s', Ok _) => (advance_grid s', @Ok gridV v)
     | (s', Raise x) => (s', Raise x) end)).
  { intros T V a f v. pose proof (add_grid_inv s T V a f HI) as Hi.
    destruct (add_grid_event s T V a f) as [s' [[]|x]] eqn:Ea; simpl in *; auto.
    apply advance_grid_inv; [exact Hi|].
    exact (add_grid_nonempty _ _ _ _ _ _ HI Ea). }
  repeat (match goal with
  | |- context [match py_index ?l ?i with _ => _ end] => destruct (py_index l i)
  | |- context [match old_grid s with _ => _ end] => destruct (old_grid s)
  | |- context [if ?b then _ else _] =>
      lazymatch b with context [add_grid_event] => fail | _ => destruct b end
  end; simpl; auto).
  all: first [apply Hadd | apply advance_grid_inv; assumption | exact HI].
Qed.

Lemma ramp_loop_inv pts : forall s, Inv s -> Inv (fst (ramp_loop s pts)).
Proof.
  induction pts as [|[t si] pts IH]; simpl; intros s HI; auto.
  pose proof (add_solar_inv s t si (29815#100) HI) as Hi.
  destruct (add_solar_event s t si (29815#100)) as [s' [[]|x]]; simpl in *; auto.
Qed.

Lemma step_inv s o : Inv s -> Inv (fst (step s o)).
Proof.
  intros HI. destruct o; simpl; unfold create_random_insolation, create_random_voltage.
  - apply add_solar_inv; auto.
  - apply add_grid_inv; auto.
  - apply add_load_inv; auto.
  - apply remove_solar_inv; auto.
  - apply remove_grid_inv; auto.
  - apply remove_load_inv; auto.
  - apply solar_query_inv; auto.
  - apply grid_query_inv; auto.
  - apply load_query_inv; auto.
  - destruct HI as [HS Hs Hg Hl Cs Cg Cl]. constructor; simpl; auto; lia.
  - apply add_solar_inv; auto.
  - apply add_grid_inv; auto.
  - unfold insolation_ramp. pose proof (solar_query_inv s a HI) as Hi.
    destruct (solar_events s a) as [s1 [v|x]]; simpl in *; auto.
    destruct (arange a b st); simpl; auto. apply ramp_loop_inv; auto.
  - unfold voltage_ramp. pose proof (grid_query_inv s a HI) as Hi.
    destruct (grid_events s a) as [s1 [v|x]]; simpl in *; auto.
    destruct (arange a b st) as [[|]|]; simpl; auto.
Qed.

Lemma run_inv os : forall s, Inv s -> Inv (fst (run s os)).
Proof.
  induction os as [|o os IH]; simpl; intros s HI; auto.
  pose proof (step_inv s o HI) as H1. destruct (step s o) as [s1 r]. simpl in H1.
  specialize (IH s1 H1). destruct (run s1 os); auto.
Qed.

Lemma reachable_inv s : reachable s -> Inv s.
Proof. intros (sp & ov & a & b & c & os & ->). apply run_inv, Inv_init. Qed.

(** configuration of the object is never touched *)
Definition same_config (s s' : events) : Prop :=
  espec s' = espec s /\ override_angle s' = override_angle s /\
  solarEn s' = solarEn s /\ gridEn s' = gridEn s /\ loadEn s' = loadEn s.
Lemma same_config_refl s : same_config s s. Proof. repeat split. Qed.
Lemma same_config_trans a b c : same_config a b -> same_config b c -> same_config a c.
Proof. unfold same_config. intuition congruence. Qed.

(** ** C02/C03: adding events *)
Lemma add_solar_ok s T si K s' :
  Inv s -> add_solar_event s T si K = (s', Ok tt) ->
  (forall t, lookup (items (solar s')) t =
             if qeq T t then Some (SolarV si K) else lookup (items (solar s)) t) /\
  items (grid s') = items (grid s) /\ items (load s') = items (load s) /\
  counter (solar s') = counter (solar s) /\ counter (grid s') = counter (grid s) /\
  counter (load s') = counter (load s) /\ same_config s s' /\ totals_ok s'.
Proof.
  intros HI. unfold add_solar_event.
  destruct (qlt si _ || qlt _ si)%bool; [discriminate|].
  destruct (qlt 375 K || qlt K 250)%bool; [discriminate|].
  intros [= <-]. simpl. repeat split; auto.
  intros t. apply lookup_insert; [apply solarV_refl|apply HI].
Qed.

Lemma add_grid_ok s T V a f s' :
  Inv s -> add_grid_event s T V a f = (s', Ok tt) ->
  (forall t, lookup (items (grid s')) t =
             if qeq T t then Some (GridV V a f) else lookup (items (grid s)) t) /\
  items (solar s') = items (solar s) /\ items (load s') = items (load s) /\
  counter (solar s') = counter (solar s) /\ counter (grid s') = counter (grid s) /\
  counter (load s') = counter (load s) /\ same_config s s' /\ totals_ok s'.
Proof.
  intros HI. unfold add_grid_event.
  destruct (qlt V _ || qlt _ V)%bool; [discriminate|].
  destruct (qlt f _ || qlt _ f)%bool; [discriminate|].
  intros [= <-]. simpl. repeat split; auto.
  intros t. apply lookup_insert; [apply gridV_refl|apply HI].
Qed.

Lemma add_load_ok s T zr zi s' :
  Inv s -> add_load_event s T zr zi = (s', Ok tt) ->
  (forall t, lookup (items (load s')) t =
             if qeq T t then Some (LoadV zr zi) else lookup (items (load s)) t) /\
  items (solar s') = items (solar s) /\ items (grid s') = items (grid s) /\
  counter (solar s') = counter (solar s) /\ counter (grid s') = counter (grid s) /\
  counter (load s') = counter (load s) /\ same_config s s' /\ totals_ok s'.
Proof.
  intros HI. unfold add_load_event. destruct (qlt zr 0); [discriminate|].
  intros [= <-]. simpl. repeat split; auto.
  intros t. apply lookup_insert; [apply loadV_refl|apply HI].
Qed.

Lemma add_solar_exact s T si K :
  (solar_ok (espec s) (SolarV si K) /\ exists s', add_solar_event s T si K = (s', Ok tt)) \/
  (~ solar_ok (espec s) (SolarV si K) /\ add_solar_event s T si K = (s, Raise ValueError)).
Proof.
  unfold add_solar_event, solar_ok; simpl.
  destruct (qlt si _) eqn:E1; simpl; qb; [right; split; [lra|auto]|].
  destruct (qlt _ si) eqn:E2; simpl; qb; [right; split; [lra|auto]|].
  destruct (qlt 375 K) eqn:E3; simpl; qb; [right; split; [lra|auto]|].
  destruct (qlt K 250) eqn:E4; simpl; qb; [right; split; [lra|auto]|].
  left. split; [lra|eauto].
Qed.

Lemma add_grid_exact s T V a f :
  (grid_ok (espec s) (GridV V a f) /\ exists s', add_grid_event s T V a f = (s', Ok tt)) \/
  (~ grid_ok (espec s) (GridV V a f) /\ add_grid_event s T V a f = (s, Raise ValueError)).
Proof.
  unfold add_grid_event, grid_ok; simpl.
  destruct (qlt V _) eqn:E1; simpl; qb; [right; split; [lra|auto]|].
  destruct (qlt _ V) eqn:E2; simpl; qb; [right; split; [lra|auto]|].
  destruct (qlt f _) eqn:E3; simpl; qb; [right; split; [lra|auto]|].
  destruct (qlt _ f) eqn:E4; simpl; qb; [right; split; [lra|auto]|].
  left. split; [lra|eauto].
Qed.

Lemma add_load_exact s T zr zi :
  (load_ok (LoadV zr zi) /\ exists s', add_load_event s T zr zi = (s', Ok tt)) \/
  (~ load_ok (LoadV zr zi) /\ add_load_event s T zr zi = (s, Raise ValueError)).
Proof.
  unfold add_load_event, load_ok; simpl.
  destruct (qlt zr 0) eqn:E1; simpl; qb; [right; split; [lra|auto]|].
  left. split; [lra|eauto].
Qed.

(** ** totals *)
Definition clears (o : op) : bool :=
  match o with
  | ORemSolar T all => match all, T with false, Some _ => false | _, _ => true end
  | ORemLoad T all => match all, T with false, Some _ => false | _, _ => true end
  | _ => false
  end.

Lemma totals_update s : totals_ok (update_totals s).
Proof. repeat split. Qed.

Lemma totals_add_solar s T a b : totals_ok s -> totals_ok (fst (add_solar_event s T a b)).
Proof.
  unfold add_solar_event. intros H.
  destruct (_ || _)%bool; auto. destruct (_ || _)%bool; auto. apply totals_update.
Qed.
Lemma totals_add_grid s T a b c : totals_ok s -> totals_ok (fst (add_grid_event s T a b c)).
Proof.
  unfold add_grid_event. intros H.
  destruct (_ || _)%bool; auto. destruct (_ || _)%bool; auto. apply totals_update.
Qed.
Lemma totals_add_load s T a b : totals_ok s -> totals_ok (fst (add_load_event s T a b)).
Proof. unfold add_load_event. intros H. destruct (qlt _ _); auto. apply totals_update. Qed.
Lemma totals_solar s t : totals_ok s -> totals_ok (fst (solar_events s t)).
Proof.
  unfold solar_events. intros (Hs & Hg & Hl). destruct (solarEn s); [|repeat split; auto].
  destruct (query_items (SolarV (ins_default (espec s)) Tactual_default) (solar s) t) as [Hi Ht].
  destruct (query_sched _ _ _). simpl in *. unfold totals_ok; simpl. rewrite Hi, Ht. auto.
Qed.
Lemma totals_load s t : totals_ok s -> totals_ok (fst (load_events s t)).
Proof.
  unfold load_events. intros (Hs & Hg & Hl). destruct (loadEn s); [|repeat split; auto].
  destruct (query_items Zload_default (load s) t) as [Hi Ht].
  destruct (query_sched _ _ _). simpl in *. unfold totals_ok; simpl. rewrite Hi, Ht. auto.
Qed.
Lemma totals_grid s t : totals_ok s -> totals_ok (fst (grid_events s t)).
Proof.
  intros HT. unfold grid_events, grid_events_at. destruct (gridEn s); simpl; auto.
  destruct (items (grid s)) as [|e0 l0] eqn:El; auto. rewrite <- El.
  assert (Hadd : forall T V a f v, totals_ok (fst
     match add_grid_event s T V a f with
     | (s', Ok _) => (advance_grid s', @Ok gridV v)
     | (s', Raise x) => (s', Raise x) end)).
  { intros T V a f v. pose proof (totals_add_grid s T V a f HT) as Hi.
    destruct (add_grid_event s T V a f) as [s' [[]|x]] eqn:Ea; simpl in *; auto. }
  repeat (match goal with
  | |- context [match py_index ?l ?i with _ => _ end] => destruct (py_index l i)
  | |- context [match old_grid s with _ => _ end] => destruct (old_grid s)
  | |- context [if ?b then _ else _] =>
      lazymatch b with context [add_grid_event] => fail | _ => destruct b end
  end; simpl; auto).
  all: first [apply Hadd | assumption].
Qed.
Lemma totals_ramp pts : forall s, totals_ok s -> totals_ok (fst (ramp_loop s pts)).
Proof.
  induction pts as [|[t si] pts IH]; simpl; intros s HI; auto.
  pose proof (totals_add_solar s t si (29815#100) HI) as Hi.
  destruct (add_solar_event s t si (29815#100)) as [s' [[]|x]]; simpl in *; auto.
Qed.

Lemma step_totals s o : clears o = false -> totals_ok s -> totals_ok (fst (step s o)).
Proof.
  intros Hc HT. destruct o; simpl in *; unfold create_random_insolation, create_random_voltage;
    try (apply totals_add_solar; auto); try (apply totals_add_grid; auto);
    try (apply totals_add_load; auto); try apply totals_solar; try apply totals_load; try apply totals_grid;
    auto.
  - destruct all, T; try discriminate. auto.
  - apply totals_update.
  - destruct all, T; try discriminate. apply totals_update.
  - unfold insolation_ramp. pose proof (totals_solar s a HT) as Hi.
    destruct (solar_events s a) as [s1 [v|x]]; simpl in *; auto.
    destruct (arange a b st); simpl; auto. apply totals_ramp; auto.
  - unfold voltage_ramp. pose proof (totals_grid s a HT) as Hi.
    destruct (grid_events s a) as [s1 [v|x]]; simpl in *; auto.
    destruct (arange a b st) as [[|]|]; simpl; auto.
Qed.

Lemma run_totals os : forall s, forallb (fun o => negb (clears o)) os = true ->
  totals_ok s -> totals_ok (fst (run s os)).
Proof.
  induction os as [|o os IH]; simpl; intros s Hc HT; auto.
  apply andb_true_iff in Hc as [Hc Hcs]. apply negb_true_iff in Hc.
  pose proof (step_totals s o Hc HT) as H1. destruct (step s o) as [s1 r]. simpl in H1.
  specialize (IH s1 Hcs H1). destruct (run s1 os); auto.
Qed.

(** ** C08: no removal, no crash *)
Definition removes (o : op) : bool :=
  match o with ORemSolar _ _ | ORemGrid _ | ORemLoad _ _ => true | _ => false end.

Definition counter_ok {A} (sc : sched A) : Prop :=
  in_range sc /\ (items sc = [] -> counter sc = 0%Z).

Record Safe (s : events) : Prop := {
  safe_inv : Inv s;
  safe_ov : override_angle s = true;
  safe_rs : counter_ok (solar s);
  safe_rg : counter_ok (grid s);
  safe_rl : counter_ok (load s) }.

Lemma counter_ok_init {A} : counter_ok (@Sched A [] 0 0).
Proof. split; [split|]; simpl; auto; try lia; congruence. Qed.

Lemma Safe_init sp a b c : Safe (init_events sp true a b c).
Proof. constructor; simpl; auto; try apply Inv_init; apply counter_ok_init. Qed.

Lemma counter_ok_grow {A} veqb (refl : forall a, veqb a a = true) (sc : sched A) T v tot :
  increasing (items sc) -> counter_ok sc ->
  counter_ok (Sched (insert_event veqb T v (items sc)) tot (counter sc)).
Proof.
  intros Hi [[H0 H1] H2].
  pose proof (insert_length veqb refl T v (items sc) Hi) as Hl.
  pose proof (insert_length_pos veqb refl T v (items sc) Hi) as Hp.
  split; [split; simpl; auto|simpl; intros E; congruence]. intros _.
  pose proof (len_pos _ Hp) as Hp'.
  destruct (items sc) as [|e l] eqn:E.
  - rewrite H2 by auto. lia.
  - specialize (H1 ltac:(congruence)). unfold len in *. lia.
Qed.

Lemma add_solar_safe s T a b : Safe s -> Safe (fst (add_solar_event s T a b)).
Proof.
  intros HS. pose proof (add_solar_inv s T a b (safe_inv s HS)) as HI. revert HI.
  unfold add_solar_event. destruct (_ || _)%bool; auto. destruct (_ || _)%bool; auto.
  simpl. intros HI. destruct HS as [I0 Ho Rs Rg Rl]. constructor; simpl; auto.
  apply counter_ok_grow; auto; [apply solarV_refl|apply I0].
Qed.
Lemma add_grid_safe s T a b c : Safe s -> Safe (fst (add_grid_event s T a b c)).
Proof.
  intros HS. pose proof (add_grid_inv s T a b c (safe_inv s HS)) as HI. revert HI.
  unfold add_grid_event. destruct (_ || _)%bool; auto. destruct (_ || _)%bool; auto.
  simpl. intros HI. destruct HS as [I0 Ho Rs Rg Rl]. constructor; simpl; auto.
  apply counter_ok_grow; auto; [apply gridV_refl|apply I0].
Qed.
Lemma add_load_safe s T a b : Safe s -> Safe (fst (add_load_event s T a b)).
Proof.
  intros HS. pose proof (add_load_inv s T a b (safe_inv s HS)) as HI. revert HI.
  unfold add_load_event. destruct (qlt _ _); auto.
  simpl. intros HI. destruct HS as [I0 Ho Rs Rg Rl]. constructor; simpl; auto.
  apply counter_ok_grow; auto; [apply loadV_refl|apply I0].
Qed.

Lemma query_sched_safe {A} (d : A) sc t :
  increasing (items sc) -> (items sc <> [] -> total sc = len (items sc)) -> counter_ok sc ->
  is_ok (snd (query_sched d sc t)) = true /\ counter_ok (fst (query_sched d sc t)).
Proof.
  intros Hi Ht [Hr He]. pose proof (query_safe d sc t (conj Hi Ht) Hr) as H.
  destruct (query_sched d sc t) as [sc' r] eqn:Eq. simpl. destruct H as (Hok & Hitems & _ & Hr').
  split; auto. split; auto. rewrite Hitems. intros E. rewrite query_empty in Eq by auto.
  injection Eq as <- <-. auto.
Qed.

Lemma solar_safe s t : Safe s -> is_ok (snd (solar_events s t)) = true /\ Safe (fst (solar_events s t)).
Proof.
  intros HS. pose proof (solar_query_inv s t (safe_inv s HS)) as HI. revert HI.
  unfold solar_events. destruct (solarEn s); auto.
  set (d := SolarV _ _).
  pose proof (query_sched_safe d (solar s) t (proj1 (inv_sched s (safe_inv s HS)))
                (inv_ts s (safe_inv s HS)) (safe_rs s HS)) as [Hok Hc].
  destruct (query_sched d (solar s) t) as [sc r]. simpl in *. intros HI. split; auto.
  destruct HS as [I0 Ho Rs Rg Rl]. constructor; simpl; auto.
Qed.
Lemma load_safe s t : Safe s -> is_ok (snd (load_events s t)) = true /\ Safe (fst (load_events s t)).
Proof.
  intros HS. pose proof (load_query_inv s t (safe_inv s HS)) as HI. revert HI.
  unfold load_events. destruct (loadEn s); auto.
  assert (Hinc : increasing (items (load s))) by apply (inv_sched s (safe_inv s HS)).
  pose proof (query_sched_safe Zload_default (load s) t Hinc
                (inv_tl s (safe_inv s HS)) (safe_rl s HS)) as [Hok Hc].
  destruct (query_sched Zload_default (load s) t) as [sc r]. simpl in *. intros HI. split; auto.
  destruct HS as [I0 Ho Rs Rg Rl]. constructor; simpl; auto.
Qed.

(** ** exact behaviour of a grid query (angle override on) *)
Lemma last_split {A} (l : list A) : l <> [] -> exists l' x, l = l' ++ [x].
Proof. intros H. destruct (exists_last H) as (l' & x & E). eauto. Qed.

Lemma py_index_last {A} (l : list A) x : py_index (l ++ [x]) (-1) = Ok x.
Proof.
  assert (H : nth_error (l ++ [x]) (length l) = Some x).
  { rewrite nth_error_app2, Nat.sub_diag by lia. reflexivity. }
  assert (Hl : (length l < length (l ++ [x]))%nat) by (rewrite app_length; simpl; lia).
  pose proof (py_index_neg _ _ _ Hl H) as E.
  rewrite app_length in E. simpl in E.
  replace (Z.of_nat (length l) - Z.of_nat (length l + 1))%Z with (-1)%Z in E by lia. exact E.
Qed.

Definition prev_grid (s : events) (l1 : list (ev gridV)) : gridV :=
  last (map eV l1) (grid_default s).

Lemma last_map_nth {A B} (f : A -> B) l d x :
  nth_error l (length l - 1) = Some x -> l <> [] -> last (map f l) d = f x.
Proof.
  intros H Hn. destruct (last_split l Hn) as (l' & y & ->).
  rewrite app_length in H. simpl in H.
  replace (length l' + 1 - 1)%nat with (length l') in H by lia.
  rewrite nth_error_app2, Nat.sub_diag in H by lia. injection H as <-.
  rewrite map_app. simpl. apply last_last.
Qed.

Lemma grid_exact s t :
  Inv s -> in_range (grid s) -> override_angle s = true -> gridEn s = true ->
  items (grid s) <> [] ->
  exists l1 ec l2 elast,
    items (grid s) = l1 ++ ec :: l2 /\ counter (grid s) = Z.of_nat (length l1) /\
    (exists l', items (grid s) = l' ++ [elast]) /\
    let ang := Vangle (prev_grid s l1) + 2 * math_pi * (fgrid (eV ec) - fgrid (prev_grid s l1)) * del_t_event in
    let c' := Z.min (len (items (grid s)) - 1) (Z.of_nat (length l1) + 1) in
    ( (t < eT ec /\ grid_events s t = (s, Ok (prev_grid s l1)))
    \/ (eT ec <= t /\ t < eT elast + (3#1000) /\
        let v := GridV (Vgrid (eV ec)) ang (fgrid (eV ec)) in
        exists s', grid_events s t = (s', Ok v) /\ same_config s s' /\
          items (grid s') = l1 ++ Ev (eT ec) v :: l2 /\ counter (grid s') = c' /\
          total (grid s') = len (items (grid s')) /\
          items (solar s') = items (solar s) /\ items (load s') = items (load s) /\
          counter (solar s') = counter (solar s) /\ counter (load s') = counter (load s))
    \/ (eT ec <= t /\ eT elast + (3#1000) <= t /\
        grid_events s t = (advance_grid s, Ok (eV ec)))).
Proof.
  intros HI [Hc0 Hc1] Hov Hen Hne. specialize (Hc1 Hne).
  destruct HI as [(I1 & I2 & I3 & R1 & R2 & R3) Hs Hg Hl Cs Cg Cl]. specialize (Hg Hne).
  set (c := Z.to_nat (counter (grid s))).
  assert (Hc : counter (grid s) = Z.of_nat c) by lia.
  assert (Hcl : (c < length (items (grid s)))%nat) by (unfold len in Hc1; lia).
  destruct (nth_error (items (grid s)) c) as [ec|] eqn:Ec; [|apply nth_error_None in Ec; lia].
  destruct (nth_error_split _ _ Ec) as (l1 & l2 & El & Hl1).
  destruct (last_split _ Hne) as (l' & elast & Elast).
  exists l1, ec, l2, elast. split; auto. split; [lia|]. split; [eauto|]. cbv zeta.
  remember (Z.min (len (items (grid s)) - 1) (Z.of_nat (length l1) + 1)) as c' eqn:Ec'.
  assert (Hold : old_grid s = Ok (prev_grid s l1)).
  { unfold old_grid, prev_grid. rewrite Hc. destruct (Z.of_nat c =? 0)%Z eqn:E0.
    - apply Z.eqb_eq in E0. destruct l1; [reflexivity|simpl in Hl1; lia].
    - apply Z.eqb_neq in E0.
      destruct (nth_error (items (grid s)) (c - 1)) as [ep|] eqn:Ep;
        [|apply nth_error_None in Ep; lia].
      replace (Z.of_nat c - 1)%Z with (Z.of_nat (c - 1)) by lia.
      rewrite (py_index_nat _ _ _ Ep). f_equal.
      rewrite El, nth_error_app1 in Ep by lia. rewrite <- Hl1 in Ep.
      symmetry. apply (last_map_nth eV); auto. destruct l1; simpl in *; [lia|congruence]. }
  unfold grid_events, grid_events_at. rewrite Hen. simpl negb. cbv iota.
  destruct (items (grid s)) as [|x0 lx] eqn:Eit; [congruence|].
  rewrite Hc, (py_index_nat _ _ _ Ec).
  destruct (qlt t (eT ec)) eqn:Et; qb.
  - left. split; auto. simpl. destruct (Z.of_nat c =? 0)%Z eqn:E0.
    + apply Z.eqb_eq in E0. destruct l1; [reflexivity|simpl in Hl1; lia].
    + apply Z.eqb_neq in E0.
      replace (1 <=? Z.of_nat c)%Z with true by (symmetry; apply Z.leb_le; lia). simpl.
      unfold old_grid in Hold. rewrite Hc in Hold.
      replace (Z.of_nat c =? 0)%Z with false in Hold by (symmetry; apply Z.eqb_neq; lia).
      rewrite Eit in Hold.
      destruct (py_index (x0 :: lx) (Z.of_nat c - 1)); [|discriminate].
      injection Hold as ->. reflexivity.
  - right. simpl. assert (E : qle (eT ec) t = true) by (apply qle_iff; auto). rewrite E.
    rewrite Elast, py_index_last. rewrite Hov. simpl.
    destruct (qlt t (eT elast + (3#1000))) eqn:Ew; qb.
    + left. split; auto. split; auto. rewrite Hold.
      assert (Hin : In ec (x0 :: lx)) by (eapply nth_error_In; eauto).
      specialize (R2 ec Hin).
      set (ang := Vangle _ + _).
      destruct (add_grid_exact s (eT ec) (Vgrid (eV ec)) ang (fgrid (eV ec))) as [[_ [s' Ea]]|[Hbad _]].
      2:{ exfalso. apply Hbad. apply R2. }
      rewrite Ea. exists (advance_grid s'). split; auto.
      unfold add_grid_event in Ea.
      destruct (_ || _)%bool; [discriminate|]. destruct (_ || _)%bool; [discriminate|].
      injection Ea as <-. simpl. repeat split; auto.
      * rewrite Eit, El. apply insert_existing; [apply gridV_refl|]. rewrite <- El. auto.
      * rewrite Ec', Eit, El, insert_existing; [|apply gridV_refl|rewrite <- El; auto].
        unfold len. rewrite !app_length. cbn [length]. lia.
    + right. split; auto.
Qed.

Lemma grid_disabled s t : gridEn s = false -> grid_events s t = (s, Ok (grid_default s)).
Proof. intros H. unfold grid_events, grid_events_at. rewrite H. reflexivity. Qed.
Lemma grid_empty s t : items (grid s) = [] -> grid_events s t = (s, Ok (grid_default s)).
Proof. intros H. unfold grid_events, grid_events_at. rewrite H. destruct (gridEn s); reflexivity. Qed.

Lemma grid_safe s t : Safe s -> is_ok (snd (grid_events s t)) = true /\ Safe (fst (grid_events s t)).
Proof.
  intros HS. destruct (gridEn s) eqn:En.
  2:{ rewrite grid_disabled; auto. }
  destruct (items (grid s)) as [|x l] eqn:E.
  { rewrite grid_empty; auto. }
  pose proof (grid_query_inv s t (safe_inv s HS)) as HI'.
  assert (Hne : items (grid s) <> []) by congruence.
  destruct HS as [HI Ho Rs [Rg Rg0] Rl].
  destruct (grid_exact s t HI Rg Ho En Hne)
    as (l1 & ec & l2 & el & Hit & Hc & _ & [[_ Eq]|[(_ & _ & s' & Eq & Hcfg & Hi & Hc' & Ht & Hi2 & Hi3 & Hc2 & Hc3)|(_ & _ & Eq)]]);
    rewrite Eq in *; simpl in *; split; auto.
  - constructor; auto. split; auto.
  - assert (Hlen : len (items (grid s')) = len (items (grid s))).
    { rewrite Hi, Hit. unfold len. rewrite !app_length. reflexivity. }
    constructor; auto.
    + destruct Hcfg as (_ & -> & _). auto.
    + destruct Rs as [[Ra Rb] Rc]. repeat split; rewrite ?Hi2, ?Hc2; auto.
    + pose proof (len_pos _ Hne). repeat split; rewrite ?Hc'; try rewrite Hlen; try lia.
      intros E'. rewrite Hi in E'. destruct l1; discriminate.
    + destruct Rl as [[Ra Rb] Rc]. repeat split; rewrite ?Hi3, ?Hc3; auto.
  - constructor; simpl; auto. pose proof (len_pos _ Hne).
    rewrite (inv_tg s HI Hne). rewrite Hc.
    split; [split|]; simpl; try lia. congruence.
Qed.

Lemma ramp_safe pts : forall s, Safe s -> Safe (fst (ramp_loop s pts)).
Proof.
  induction pts as [|[t si] pts IH]; simpl; intros s HI; auto.
  pose proof (add_solar_safe s t si (29815#100) HI) as Hi.
  destruct (add_solar_event s t si (29815#100)) as [s' [[]|x]]; simpl in *; auto.
Qed.

Lemma Safe_reset s : Inv s -> override_angle s = true -> Safe (reset_counters s).
Proof.
  intros [HS Hs Hg Hl Cs Cg Cl] Ho.
  constructor; simpl; auto; [constructor; simpl; auto; lia| | |];
    (split; [split; simpl; [lia|intros Hne; pose proof (len_pos _ Hne); lia]|auto]).
Qed.

Lemma step_safe s o : removes o = false -> Safe s -> Safe (fst (step s o)).
Proof.
  intros Hr HS. destruct o; simpl in *; try discriminate;
    unfold create_random_insolation, create_random_voltage.
  - apply add_solar_safe; auto.
  - apply add_grid_safe; auto.
  - apply add_load_safe; auto.
  - apply solar_safe; auto.
  - apply grid_safe; auto.
  - apply load_safe; auto.
  - apply Safe_reset; apply HS.
  - apply add_solar_safe; auto.
  - apply add_grid_safe; auto.
  - unfold insolation_ramp. pose proof (solar_safe s a HS) as [_ Hi].
    destruct (solar_events s a) as [s1 [v|x]]; simpl in *; auto.
    destruct (arange a b st); simpl; auto. apply ramp_safe; auto.
  - unfold voltage_ramp. pose proof (grid_safe s a HS) as [_ Hi].
    destruct (grid_events s a) as [s1 [v|x]]; simpl in *; auto.
    destruct (arange a b st) as [[|]|]; simpl; auto.
Qed.

Lemma run_safe os : forall s, forallb (fun o => negb (removes o)) os = true ->
  Safe s -> Safe (fst (run s os)).
Proof.
  induction os as [|o os IH]; simpl; intros s Hc HT; auto.
  apply andb_true_iff in Hc as [Hc Hcs]. apply negb_true_iff in Hc.
  pose proof (step_safe s o Hc HT) as H1. destruct (step s o) as [s1 r]. simpl in H1.
  specialize (IH s1 Hcs H1). destruct (run s1 os); auto.
Qed.
