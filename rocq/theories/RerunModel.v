(** What a batch run does to the event schedules. *)
From Verif Require Import Base EventsModel.

(** queries of the schedules by the model functions while the solver runs: update_Ppv
    (DER_utilities.py:295-304), update_Zload1 (332-340), Grid.steady_state_model
    (grid_components.py:94) *)
Definition is_query (o : op) : bool :=
  match o with OQSolar _ | OQGrid _ | OQLoad _ => true | _ => false end.
(** run_simulation, dynamic_simulation.py:951-969 (batch branch): the solver queries the
    schedules in any order and any number of times; the counters are reset after the
    solver has returned.  When it raises (solver failure, exception in the model) the
    exception leaves the function through the handler at 975-976 and the reset is
    skipped.  The queries of collect_simulation_results (474-590) are each followed by
    their own reset and are not part of this model. *)
Inductive outcome := Completed | Raised.
Definition batch_run (s : events) (queries : list op) (o : outcome) : events :=
  let s' := fst (run s queries) in
  match o with Completed => reset_counters s' | Raised => s' end.
