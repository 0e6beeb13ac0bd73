(** Model of the instance names: /repo/pvder/utility_classes.py:21-37, the class
    counters and Grid.name. *)
From Coq Require Import String Ascii Decimal DecimalString DecimalNat.
From Verif Require Import Base ConfigValues ConfigData.
Open Scope string_scope.

(** The classes whose objects are named: the seven DER classes
    (templates.py:16-123 and the DER_components_* modules), DynamicSimulation,
    SimulationEvents, SimulationResults and Grid. *)
Inductive cls := DER1 | DER1c | DER3 | DER3n | DER3nb | DERb | DER3c | Sim | Events | Results | GridC.
(** type(self).__name__ *)
Definition class_name (c : cls) : string :=
  match c with
  | DER1 => "SolarPVDERSinglePhase" | DER1c => "SolarPVDERSinglePhaseConstantVdc" | DER3 => "SolarPVDERThreePhase"
  | DER3n => "SolarPVDERThreePhaseNoVrmsFilter" | DER3nb => "SolarPVDERThreePhaseNumba"
  | DERb => "SolarPVDERThreePhaseBalanced" | DER3c => "SolarPVDERThreePhaseConstantVdc"
  | Sim => "DynamicSimulation" | Events => "SimulationEvents" | Results => "SimulationResults" | GridC => "Grid"
  end.

(** str(n) for a non-negative integer *)
Definition py_str (n : nat) : string := NilZero.string_of_uint (Nat.to_uint n).

(** name_instance, utility_classes.py:21-37; [identifier] is str(identifier)
    ("None" for the default of DynamicSimulation and SimulationResults). *)
Definition name_instance (model_name : string) (count : nat) (identifier : string) : res (nat * string) :=
  let ID := count in
  do n <- (if existsb (String.eqb model_name) (map fst DER_design_template) then Ok (model_name ++ "_" ++ py_str ID)
           else if String.eqb model_name "DynamicSimulation" then Ok ("sim_" ++ py_str ID)
           else if String.eqb model_name "SimulationEvents" then Ok ("events_" ++ py_str ID)
           else if String.eqb model_name "SimulationResults" then Ok ("results_" ++ py_str ID)
           else Raise ValueError);
  Ok (ID, identifier ++ "-" ++ n).

(** The counters are class attributes (each class defines its own [count];
    Grid has grid_count).  A constructor first increments its counter
    (single_phase.py:55, single_phase_constant_Vdc.py:53, three_phase.py:52,
    three_phase_no_Vrms_filter.py:52, three_phase_numba.py:280,
    three_phase_balanced.py:56, three_phase_constant_Vdc.py:50,
    dynamic_simulation.py:51, simulation_events.py:41, simulation_utilities.py:55,
    grid_components.py:44).  A DER is then configured (DER_components.py:46-53),
    which may raise before the name is assigned (line 55); [Raise] in [n_ident] is that case;
    otherwise [n_ident] is str() of the identifier argument. *)
Definition counters := cls -> nat.
Definition cls_eqb (a b : cls) : bool := String.eqb (class_name a) (class_name b).
Definition bump (w : counters) (c : cls) : counters := fun d => if cls_eqb c d then S (w d) else w d.
Record construction := New { n_class : cls; n_ident : res string }.
Definition create (w : counters) (k : construction) : counters * res (nat * string) :=
  let w1 := bump w (n_class k) in
  match n_class k with
  | GridC => (w1, Ok (w1 GridC, "grid_" ++ py_str (w1 GridC)))
  | c => match n_ident k with
         | Raise e => (w1, Raise e)
         | Ok i => (w1, name_instance (class_name c) (w1 c) i)
         end
  end.
Fixpoint create_all (w : counters) (ks : list construction) : list (res (nat * string)) :=
  match ks with [] => [] | k :: ks' => let '(w1, r) := create w k in r :: create_all w1 ks' end.
(** a fresh process *)
Definition fresh : counters := fun _ => 0%nat.
