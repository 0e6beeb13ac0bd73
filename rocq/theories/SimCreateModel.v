(** Model of the constructor of DynamicSimulation, /repo/pvder/dynamic_simulation.py:38-82,
    with check_jac_availability, lines 152-159, on top of SimModel.v. *)
From Coq Require Import String.
From Verif Require Import Base EventsModel SimModel.
Open Scope string_scope.
Open Scope Q_scope.

(** jac_list, line 36 *)
Definition jac_list (m : mtype) : bool := match m with MThree | MThreeNV | MSingle | MBal => true | _ => false end.
(** check_jac_availability, lines 152-159 *)
Definition check_jac_availability (m : mtype) (jacFlag : bool) : res unit :=
  if jacFlag then if jac_list m then Ok tt else Raise ValueError else Ok tt.

(** constructor arguments that matter here: solverType, jacFlag, whether a gridModel is
    given, loopMode, collectSolution, tStop *)
Record cargs := CArgs { k_solver : string; k_jac : bool; k_grid : bool; k_loop : bool; k_collect : bool; k_tStop : Q }.
(** what the constructor changes outside the new object: the class counter
    DynamicSimulation.count and events.del_t_event of the events object passed in *)
Record outside := Outside { x_count : nat; x_event_step : Q }.
(** tStart, tInc: class attributes, lines 25-26, defaults.py:34 *)
Definition tStart0 : Q := 0.
Definition tInc0 : Q := 1 # 1000.

(** __init__, lines 50-82: the new simulation together with its number, or the
    exception; the outside is changed in either case. *)
Definition create_simulation {V} (o : ops V) (m : mtype) (d : der V) (a : cargs) (x : outside)
  : outside * res (nat * sim V) :=
  let x1 := Outside (Datatypes.S (x_count x)) (x_event_step x) in
  match t_calc tStart0 (k_tStop a) tInc0 with
  | Raise e => (x1, Raise e)
  | Ok ts =>
    let x2 := Outside (x_count x1) tInc0 in
    (x2,
     bindR (construct_solver (V := V) m (k_solver a)) (fun _ =>
     bindR (check_jac_availability m (k_jac a)) (fun _ =>
     bindR (if d_alone d && negb (k_grid a) then Raise ValueError else Ok tt) (fun _ =>
     bindR (make_sim o m d ts (k_loop a) (k_collect a)) (fun s => Ok (x_count x2, s))))))
  end.
