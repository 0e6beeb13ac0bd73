(** Model of the voltage attributes that ride-through reads: update_RMS and the
    state Vrms_filter of each DER model class, and steady_state_calc
    (DER_check_and_initialize.py:824).  RMS values are inputs (Q). *)
From Verif Require Import Base EventsModel VdcModel RTModel.

(** The model classes, templates.py:17-120. *)
Inductive cls := SinglePhase | SinglePhaseConstantVdc | ThreePhase | ThreePhaseConstantVdc
  | ThreePhaseBalanced | ThreePhaseNumba | ThreePhaseNoVrmsFilter.

(** One evaluation of ODE_model: time, RMS value of each phase, the RMS value over
    the phases, the last entry of the solver's vector (only used by ThreePhase),
    PLL frequency and DC link voltage. *)
Record inputs := Inputs { n_t : Q; n_a : Q; n_b : Q; n_c : Q; n_rms : Q; n_last : Q; n_f : Q; n_vdc : Q }.

(** update_inverter_states: only three_phase.py:149-172 has an argument Vrms_filter;
    the other classes (single_phase.py, single_phase_constant_Vdc.py,
    three_phase_constant_Vdc.py, three_phase_balanced.py, three_phase_numba.py,
    three_phase_no_Vrms_filter.py) never assign the attribute. *)
Definition new_filter (c : cls) (old : option Q) (x : inputs) : option Q :=
  match c with ThreePhase => Some (n_last x) | _ => old end.
(** update_RMS: Vrms_min = Vrms = Vrms_calc() (single_phase.py:171,
    single_phase_constant_Vdc.py:160, three_phase_balanced.py:196) or
    Vrms_min = Vrms_min_calc() (three_phase.py:199, three_phase_constant_Vdc.py:204,
    three_phase_no_Vrms_filter.py:198, three_phase_numba.py:343).  In the first
    group the RMS value is that of phase a. *)
Definition new_min (c : cls) (x : inputs) : Q :=
  match c with
  | SinglePhase | SinglePhaseConstantVdc | ThreePhaseBalanced => n_rms x
  | _ => Urms_min_calc (n_a x) (n_b x) (n_c x)
  end.

(** get_Vrms_measured, DER_features.py:413-428, including the attribute lookup. *)
Definition read_voltage (mt : mtype) (vmin vrms : Q) (vfilter : option Q) : res Q :=
  match mt with
  | MMinimum => Ok vmin
  | MAverage => Ok vrms
  | MFiltered => match vfilter with Some v => Ok v | None => Raise AttributeError end
  | MOtherType => Raise ValueError
  end.

(** What the ride-through logic of RTModel is given over a simulation of a DER of
    class [c]; [vf] is the attribute Vrms_filter: set to the initial RMS voltage by
    steady_state_calc, which is the only assignment outside three_phase.py. *)
Fixpoint observed (c : cls) (vf : Q) (xs : list inputs) : list (Q * meas) :=
  match xs with
  | [] => []
  | x :: xs' =>
    let vf' := match new_filter c (Some vf) x with Some v => v | None => vf end in
    (n_t x, Meas (new_min c x) (n_rms x) vf' (n_f x) (n_vdc x)) :: observed c vf' xs'
  end.
