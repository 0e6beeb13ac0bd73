(** C100: what a new events object starts with. *)
From Verif Require Import Base EventsModel EventsSpec EventsSharedModel.

(** reading one entry of the specification dictionary; the two bounds of
    'voltage_angle' and unknown keys are not read by any method *)
Definition entry_of (s : spec) (k1 : key1) (k2 : key2) : option Q :=
  match k1, k2 with
  | KInsolation, KDefault => Some (ins_default s) | KInsolation, KMin => Some (ins_min s) | KInsolation, KMax => Some (ins_max s)
  | KVoltage, KDefault => Some (vol_default s) | KVoltage, KMin => Some (vol_min s) | KVoltage, KMax => Some (vol_max s)
  | KAngle, KDefault => Some (ang_default s)
  | KFrequency, KDefault => Some (frq_default s) | KFrequency, KMin => Some (frq_min s) | KFrequency, KMax => Some (frq_max s)
  | _, _ => None
  end.
(** the value the user's argument gives for an entry: the last one wins *)
Fixpoint asked2 (l : list (key2 * Q)) (k2 : key2) (acc : option Q) : option Q :=
  match l with
  | [] => acc
  | (k, v) :: l' => asked2 l' k2 (match k, k2 with
      | KDefault, KDefault | KMin, KMin | KMax, KMax => Some v | _, _ => acc end)
  end.
Fixpoint asked (u : spec_arg) (k1 : key1) (k2 : key2) (acc : option Q) : option Q :=
  match u with
  | [] => acc
  | (k, l) :: u' => asked u' k1 k2 (match k, k1 with
      | KInsolation, KInsolation | KVoltage, KVoltage | KAngle, KAngle | KFrequency, KFrequency => asked2 l k2 acc
      | _, _ => acc end)
  end.

Lemma set_entry_same k1 k2 v s : entry_of s k1 k2 <> None -> entry_of (set_entry k1 k2 v s) k1 k2 = Some v.
Proof. destruct k1, k2; cbn; congruence. Qed.
Lemma set_entry_other k1 k2 k1' k2' v s : (k1, k2) <> (k1', k2') ->
  entry_of (set_entry k1 k2 v s) k1' k2' = entry_of s k1' k2'.
Proof. destruct k1, k2, k1', k2'; cbn; congruence. Qed.

Definition readable (k1 : key1) (k2 : key2) : Prop := entry_of default_spec k1 k2 <> None.

Lemma inner k l k1 k2 : readable k1 k2 -> forall s,
  entry_of (fold_left (fun s kv => set_entry k (fst kv) (snd kv) s) l s) k1 k2
  = match k, k1 with
    | KInsolation, KInsolation | KVoltage, KVoltage | KAngle, KAngle | KFrequency, KFrequency =>
        asked2 l k2 (entry_of s k1 k2)
    | _, _ => entry_of s k1 k2 end.
Proof.
  intros R. induction l as [|[c v] l IH]; intros s; simpl; [destruct k, k1; reflexivity|].
  rewrite IH. unfold readable in R.
  destruct k, k1; destruct c, k2; cbn in *; congruence.
Qed.

(** An events_spec argument with known outer keys is accepted and sets exactly
    the entries it names; one with an unknown outer key is rejected unchanged. *)
Theorem C100_events_spec_applied : forall (s : spec) (u : spec_arg),
  ((forall e, In e u -> fst e <> KUnknown1) ->
    snd (update_events_spec s u) = Ok tt /\
    forall k1 k2, readable k1 k2 ->
      entry_of (fst (update_events_spec s u)) k1 k2 = asked u k1 k2 (entry_of s k1 k2))
  /\ (forall e, In e u -> fst e = KUnknown1 -> update_events_spec s u = (s, Raise AssertionError)).
Proof.
  intros s u. split.
  - intros H. unfold update_events_spec. replace (forallb _ u) with true.
    2:{ symmetry. apply forallb_forall. intros e He. specialize (H e He). destruct (fst e) eqn:E; try reflexivity; congruence. }
    split; [reflexivity|]. intros k1 k2 R. cbn [fst]. clear H. revert s.
    induction u as [|[k l] u IH]; intros s; [reflexivity|]. cbn [fold_left asked fst snd].
    rewrite IH, (inner k l k1 k2 R). destruct k, k1; reflexivity.
  - intros e He E. unfold update_events_spec. replace (forallb _ u) with false; [reflexivity|].
    symmetry. apply not_true_is_false. intros H. rewrite forallb_forall in H. specialize (H e He).
    rewrite E in H. discriminate.
Qed.
Print Assumptions C100_events_spec_applied.

(** A new object has empty schedules, the enable flags it was given and the
    angle override on; every query before any event is scheduled returns the
    class defaults, 298.15 K and a load of 10 MOhm. *)
Theorem C100_new_object_defaults : forall w u se ge le,
  snd (new_instance w u se ge le) = Ok tt ->
  exists s, insts (fst (new_instance w u se ge le)) = insts w ++ [s] /\
    items (solar s) = [] /\ items (grid s) = [] /\ items (load s) = [] /\
    solarEn s = se /\ gridEn s = ge /\ loadEn s = le /\ override_angle s = true /\
    forall t, let w' := fst (new_instance w u se ge le) in let i := length (insts w) in
      snd (call w' i (OQSolar t)) = Ok (OSolar (SolarV (ins_default (cspec w')) (29815 # 100))) /\
      snd (call w' i (OQGrid t)) = Ok (OGrid (GridV (vol_default (cspec w')) (ang_default (cspec w')) (frq_default (cspec w')))) /\
      snd (call w' i (OQLoad t)) = Ok (OLoad (LoadV 10000000 0)).
Proof.
  intros w u se ge le H.
  assert (K : exists sp, fst (new_instance w u se ge le) = World sp (insts w ++ [init_events sp true se ge le])).
  { unfold new_instance in *. destruct u as [u|]; [|eexists; reflexivity].
    destruct (update_events_spec (cspec w) u) as [sp [x|x]]; [eexists; reflexivity|discriminate]. }
  destruct K as [sp K]. rewrite K. exists (init_events sp true se ge le).
  repeat (split; [reflexivity|]). intros t. cbv zeta. cbn [cspec insts].
  unfold call. cbn [insts]. rewrite nth_error_app2, Nat.sub_diag by lia. cbn [nth_error].
  unfold view, init_events, step, solar_events, grid_events, grid_events_at, load_events, query_sched.
  cbn [cspec espec override_angle solarEn gridEn loadEn solar grid load items wrap fst snd].
  destruct se, ge, le; cbn; auto.
Qed.
Print Assumptions C100_new_object_defaults.

(** The documented defaults and ranges of the untouched class. *)
Theorem C100_documented_defaults :
  forall k1 k2, entry_of default_spec k1 k2 = match k1, k2 with
    | KInsolation, KDefault => Some 100 | KInsolation, KMin => Some 25 | KInsolation, KMax => Some 100
    | KVoltage, KDefault => Some 1 | KVoltage, KMin => Some (1#10) | KVoltage, KMax => Some (115#100)
    | KAngle, KDefault => Some 0
    | KFrequency, KDefault => Some 60 | KFrequency, KMin => Some 56 | KFrequency, KMax => Some 62
    | _, _ => None end.
Proof. intros [] []; reflexivity. Qed.
Print Assumptions C100_documented_defaults.

Example C100_defaults_hypotheses_met :
  let w := World default_spec [] in
  let u := [(KInsolation, [(KMin, 10); (KDefault, 80)]); (KFrequency, [(KMax, 65)])] in
  snd (new_instance w (Some u) true true false) = Ok tt
  /\ asked u KInsolation KDefault (Some 100) = Some 80 /\ asked u KVoltage KMax (Some 1) = Some 1
  /\ readable KFrequency KMax.
Proof. repeat split; try reflexivity. discriminate. Qed.
