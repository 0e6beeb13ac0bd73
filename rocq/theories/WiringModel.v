(** Model of how a stand-alone DER, the Grid object(s), the events object(s) and a
    simulation refer to each other.
    - the DER keeps the Grid given at its creation (attach_grid_model,
      /repo/pvder/DER_check_and_initialize.py:569-587);
    - a Grid keeps the events object given at its creation (grid_components.py:46);
    - the simulation keeps a Grid and an events object of its own
      (dynamic_simulation.py:57, 67-70).
    Objects are numbered; the mutable part of the world are the Grid objects.  An events
    object is represented by its schedule, the function from times to the result of
    grid_events (its stateful lookup is EventsModel.v). *)
From Verif Require Import RBase PhasorModel ODEModel GridModel.
From Coq Require Import List.
Import ListNotations.
Open Scope R_scope.

Record wiring := Wiring {
  der_grid : nat;            (* derModel.grid_model *)
  sim_grid : nat;            (* simulation.grid_model *)
  grid_events_of : nat -> nat;  (* grid.events *)
  sim_events : nat }.        (* simulation.simulation_events *)
Definition schedules := nat -> R -> cx * R.
Definition world := nat -> gridst.
Definition set_grid (w : world) (i : nat) (g : gridst) : world := fun j => if Nat.eqb j i then g else w j.

(** DynamicSimulation.ODE_model and jac_ODE_model, dynamic_simulation.py:321-347, and their
    counterparts simulation_utilities.py:437-463: the simulation's grid is moved to time t
    with the grid's events; then the DER evaluates. *)
Definition evaluate (r : wiring) (S_ : schedules) (w : world) (t : R) : world :=
  set_grid w (sim_grid r) (steady_state_model (w (sim_grid r)) t (S_ (grid_events_of r (sim_grid r)) t)).
(** what the DER reads in the evaluation: vag, vbg, vcg (DER_utilities.py:189-233) and
    wgrid (236-247, without frequency estimate) of its own grid *)
Definition der_reads (r : wiring) (w : world) : cx * cx * cx * R :=
  let g := w (der_grid r) in (g_vag g, g_vbg g, g_vcg g, g_w g).
(** time_series_standalone_grid at one stored time point, dynamic_simulation.py:475-495:
    the simulation's grid with the simulation's events; also what is recorded *)
Definition record_point (r : wiring) (S_ : schedules) (w : world) (t : R) : world :=
  set_grid w (sim_grid r) (ts_grid_point (w (sim_grid r)) (S_ (sim_events r) t)).
Definition recorded (r : wiring) (w : world) : cx * cx * cx * R :=
  let g := w (sim_grid r) in (g_vag g, g_vbg g, g_vcg g, g_w g).

Inductive act := Evaluate (t : R) | RecordPoint (t : R).
Definition do_act (r : wiring) (S_ : schedules) (w : world) (a : act) : world :=
  match a with Evaluate t => evaluate r S_ w t | RecordPoint t => record_point r S_ w t end.
Definition do_acts (r : wiring) (S_ : schedules) (w : world) (l : list act) : world := fold_left (do_act r S_) l w.
