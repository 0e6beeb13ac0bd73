(** Class-level sharing of [_events_spec] (simulation_events.py:24-27, 32-78):
    the dictionary belongs to the class SimulationEvents, and
    update_events_spec mutates it through [self]. *)
From Verif Require Import Base EventsModel.

Inductive key1 := KInsolation | KVoltage | KAngle | KFrequency | KUnknown1.
Inductive key2 := KDefault | KMin | KMax | KUnknown2.

(** line 74 for one pair of keys; 'voltage_angle' min/max exist in the
    dictionary but are never read, so writing them has no modelled effect;
    unknown inner keys are only logged (line 76). *)
Definition set_entry (k1 : key1) (k2 : key2) (v : Q) (s : spec) : spec :=
  match k1, k2 with
  | KInsolation, KDefault => Spec v (ins_min s) (ins_max s) (vol_default s) (vol_min s) (vol_max s) (ang_default s) (frq_default s) (frq_min s) (frq_max s)
  | KInsolation, KMin => Spec (ins_default s) v (ins_max s) (vol_default s) (vol_min s) (vol_max s) (ang_default s) (frq_default s) (frq_min s) (frq_max s)
  | KInsolation, KMax => Spec (ins_default s) (ins_min s) v (vol_default s) (vol_min s) (vol_max s) (ang_default s) (frq_default s) (frq_min s) (frq_max s)
  | KVoltage, KDefault => Spec (ins_default s) (ins_min s) (ins_max s) v (vol_min s) (vol_max s) (ang_default s) (frq_default s) (frq_min s) (frq_max s)
  | KVoltage, KMin => Spec (ins_default s) (ins_min s) (ins_max s) (vol_default s) v (vol_max s) (ang_default s) (frq_default s) (frq_min s) (frq_max s)
  | KVoltage, KMax => Spec (ins_default s) (ins_min s) (ins_max s) (vol_default s) (vol_min s) v (ang_default s) (frq_default s) (frq_min s) (frq_max s)
  | KAngle, KDefault => Spec (ins_default s) (ins_min s) (ins_max s) (vol_default s) (vol_min s) (vol_max s) v (frq_default s) (frq_min s) (frq_max s)
  | KFrequency, KDefault => Spec (ins_default s) (ins_min s) (ins_max s) (vol_default s) (vol_min s) (vol_max s) (ang_default s) v (frq_min s) (frq_max s)
  | KFrequency, KMin => Spec (ins_default s) (ins_min s) (ins_max s) (vol_default s) (vol_min s) (vol_max s) (ang_default s) (frq_default s) v (frq_max s)
  | KFrequency, KMax => Spec (ins_default s) (ins_min s) (ins_max s) (vol_default s) (vol_min s) (vol_max s) (ang_default s) (frq_default s) (frq_min s) v
  | _, _ => s
  end.

(** events_spec argument: a nested dictionary, flattened in iteration order *)
Definition spec_arg := list (key1 * list (key2 * Q)).
Definition known1 (k : key1) : bool := match k with KUnknown1 => false | _ => true end.

(** update_events_spec, lines 61-78: the assertion on line 66 runs first. *)
Definition update_events_spec (s : spec) (u : spec_arg) : spec * res unit :=
  if forallb (fun e => known1 (fst e)) u then
    (fold_left (fun s e => fold_left (fun s kv => set_entry (fst e) (fst kv) (snd kv) s) (snd e) s) u s, Ok tt)
  else (s, Raise AssertionError).

(** The interpreter state: the class dictionary and the instances.  The
    [espec] field of a stored instance is irrelevant: it is overwritten by the
    class dictionary whenever the instance is used. *)
Record world := World { cspec : spec; insts : list events }.

Definition view (w : world) (s : events) : events :=
  Events (cspec w) (override_angle s) (solarEn s) (gridEn s) (loadEn s) (solar s) (grid s) (load s).

(** SimulationEvents(events_spec=u, ...): __init__, lines 32-58 *)
Definition new_instance (w : world) (u : option spec_arg) (se ge le : bool) : world * res unit :=
  match u with
  | None => (World (cspec w) (insts w ++ [init_events (cspec w) true se ge le]), Ok tt)
  | Some u =>
    match update_events_spec (cspec w) u with
    | (sp, Ok _) => (World sp (insts w ++ [init_events sp true se ge le]), Ok tt)
    | (sp, Raise x) => (World sp (insts w), Raise x)
    end
  end.

(** a call on instance [i] *)
Definition call (w : world) (i : nat) (o : op) : world * res out :=
  match nth_error (insts w) i with
  | None => (w, Raise NameError)
  | Some s =>
    let '(s', r) := step (view w s) o in
    (World (cspec w) (firstn i (insts w) ++ s' :: skipn (S i) (insts w)), r)
  end.
