(** The time step of a simulation and the step its events object uses to convert between
    phase angle and frequency. *)
From Verif Require Import Base EventsModel SimCreateModel.

(** [ev_step]: attribute del_t_event of the events object (simulation_events.py:28, initially
    the class attribute 0.001).  [sim_inc]: attribute tInc of each simulation created on this
    events object, in order of creation (dynamic_simulation.py:26, initially the class
    attribute 0.001). *)
Record steps := Steps { ev_step : Q; sim_inc : list Q }.
Definition init_steps : steps := Steps del_t_event [].
Fixpoint set_nth (l : list Q) (i : nat) (q : Q) : list Q :=
  match l, i with [], _ => [] | _ :: l', O => q :: l' | x :: l', Datatypes.S i' => x :: set_nth l' i' q end.
Inductive action :=
| Create                       (* DynamicSimulation(der, events, ...): dynamic_simulation.py:58 *)
| SetInc (i : nat) (q : Q)     (* sim.tInc = q *)
| SetEventStep (q : Q).        (* events.del_t_event = q *)
Definition act (w : steps) (a : action) : steps :=
  match a with
  | Create => Steps tInc0 (sim_inc w ++ [tInc0])
  | SetInc i q => Steps (ev_step w) (set_nth (sim_inc w) i q)
  | SetEventStep q => Steps q (sim_inc w)
  end.
Definition acts (h : list action) : steps := fold_left act h init_steps.
(** the grid voltage and frequency during a run: events.grid_events(t) uses the attribute
    of the events object, whichever simulation runs (lines 136, 145) *)
Definition grid_events_run (w : steps) (s : events) (t : Q) : events * res gridV := grid_events_at (ev_step w) s t.
