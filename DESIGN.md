# Formal model of SolarPV-DER-simulation-tool — design

## Approach
* Decision logic and state machines (events, ride-through, connection logic, ramp limiter, DC reference list,
  simulation object, configuration, parameter dictionaries) are modelled over exact rationals `Q`, lists and strings:
  every finite Python float is a rational, comparisons are exact, and only the *rounding* of +,-,*,/ is idealised.
  NaN and infinities are not modelled.
* Analog parts (phasors, PLL, circuit, PV array, Volt-VAR, ODE right-hand sides, Jacobians, ratings, steady state,
  stored series) are modelled over the standard library's `Reals`; complex numbers are pairs (RBase.v, CxField.v).
  Calculus uses Coquelicot.
* Python exceptions are values (`Raise e`); every API method in /repo wraps its body in
  `try/except: LogUtil.exception_handler()`, which logs and re-raises (exceptionutil.py:95-104), so exceptions propagate.
* Every stateful method is a total function returning the new state *and* the result, so the state left behind
  by an exception is part of the model.
* Where the code violates the stated property the theorem is named `..._refuted` (a witness, or the negation for all
  inputs) and the strongest true version is `..._partial`; MANIFEST status is then `partial`.
* Files: `*Model.v` transcribe the code with file:line citations; `*Spec.v` (or a "Specification vocabulary" section at
  the head of a properties file) hold the vocabulary of the statements; `*Lemmas.v`/`*Proofs*.v` are proof support;
  `*Properties*.v` hold the theorems `Cxx_...`, each followed by `Print Assumptions`, with examples
  `Cxx_..._hypotheses_met` showing that the hypotheses are satisfiable by a concrete non-trivial case.

## Trusted base
* Coq 8.16.1's kernel (including the virtual machine used by `vm_compute`), and the reading of /repo by the author:
  the models were written by hand from the source text, no extraction or translation tool is involved.
* Axioms, all from the standard library: `ClassicalDedekindReals.sig_forall_dec`, `ClassicalDedekindReals.sig_not_dec`,
  `FunctionalExtensionality.functional_extensionality_dep` (the Reals) and `Classical_Prop.classic`
  (via stdlib/Coquelicot lemmas on limits, derivatives, IVT/MVT). No axiom of our own; no Admitted; the per-theorem set is listed below.
  (vcheck also lists the opaque `RbaseSymbolsImpl`/`RinvImpl`/ssreflect `Under_rel` module fields: sealed-module constants of the
  standard library that carry no assumption in `Print Assumptions`.)
* Idealisations that separate the model from the running program: exact arithmetic instead of IEEE doubles; e^x does
  not overflow except where C49 says so; `scipy.odeint`/`ode` and `scipy.optimize.minimize` are not modelled (their
  results are universally quantified, or the theorem speaks of exact solutions of the differential equation); random
  generators are universally quantified; printing, logging and plotting have no effect on the modelled state.

## What is modelled
| source (pvder/) | model |
|---|---|
| simulation_events.py (all of SimulationEvents) | EventsModel, EventsSharedModel |
| DER_features.py: Volt-VAR 33-161, flags 164-187, disconnect/reconnect 190-285, VRT 296-491, settings update 565-593, show_RT_settings 614-656, FRT 659-768 | VoltVarModel, RTModel, VRTCheckModel, FRTModel, FRTSettingsModel |
| DER_utilities.py: optional results 40, references 295-401, load 332-343, ramp 353-401, show_* 402-470, validate_model, DC schedule 525-638, parameter dictionaries 642-846, phasor helpers, frequency estimate 250-284 | ExtraModel, RampModel, LoadModel, AttrModel, DisplayModel, VdcModel, ParamModel, RatingsModel, PhasorModel, ODEModel, SeriesModel |
| DER_components.py: construction 46-285, PV module 288-418; DER_wrapper.py; DER_check_and_initialize.py; templates.py, properties.py, specifications.py; the shipped config_der.json | ConfigValues, ConfigData, ConfigModel, ConfigStates, ModifyModel, NameModel, PVModel, RatingsModel, JacCheckModel, Shipped* |
| DER_components_{single_phase, three_phase, three_phase_balanced, single_phase_constant_Vdc, three_phase_constant_Vdc, three_phase_no_Vrms_filter, three_phase_numba}.py: ODE_model, jac_ODE_model, measured voltages | ODEModel, Const3Model, NoFilter, Nb*, JacModel, Const3Jac, MeasModel |
| dynamic_simulation.py (creation, states, series, run_simulation, loop mode, co-simulation, debug output), simulation_utilities.py (plots 21-360, solver wrappers 363-504) | SimModel, SimCreateModel, CosimModel, WiringModel, RerunModel, SeriesModel, PhaseAngleModel, StepModel, PlotModel |
| grid_components.py | GridModel, RatingsModel (base values) |
| utility_functions.py, utility_functions_numba.py (phasors, transforms, RMS, unbalance, limiters, time-constant helper) | PhasorModel, NbUtil, TimeConstModel |
| exceptionutil.py: re-raise 95-104, get_logs 118-167 | Base, LogModel |

## Per property: approach, status, theorems, assumptions
Assumption sets as printed by `Print Assumptions`: `none` = closed under the global context; `R-` = {functional_extensionality_dep, sig_forall_dec}; `R` = R- plus sig_not_dec; `RC` = R plus classic.

* **C01** Event schedules stay sorted, duplicate-free and in range — *proved*. Q model of the event object; invariant by induction over the op list. Schedules: every history. Totals: every history without REMOVE_ALL; C01_totals_after_clear_refuted shows the stale totals after a clear.
  * [none] `C01_schedules_sorted_unique_in_range`, `C01_totals`, `C01_totals_after_clear_refuted`
* **C02** Adding an event replaces exactly the event at the same time — *proved*. Refinement to a finite map time->value (lookup function).
  * [none] `C02_add_solar_replaces_exactly`, `C02_add_grid_replaces_exactly`, `C02_add_load_replaces_exactly`
* **C03** Event validation is exact and atomic — *proved*. Case analysis of the validation, state equality on rejection. iff characterisation of rejection, and a rejected add leaves the whole object unchanged.
  * [none] `C03_add_solar_validation`, `C03_add_grid_validation`, `C03_add_load_validation`
* **C04** Active solar/load event during a forward simulation — *proved*. Counter invariant c=min(n-1,#events<=t), induction over query list.
  * [none] `C04_solar_active_event`, `C04_load_active_event`, `C04_disabled_defaults`
* **C05** Active event for arbitrary query times — *partial*. False of the code: refuted by a vm_compute witness; exact counter semantics proved instead. REFUTED in full: a query that skips an event boundary, or steps back, returns a stale event. Proved instead: no future event is ever reported in a forward run and repeating a query settles on the right value.
  * [none] `C05_active_event_refuted`, `C05_backward_step_refuted`, `C05_no_future_event_partial`, `C05_repeated_query_settles_partial`
* **C06** Grid event queries report the scheduled voltage and frequency — *proved*. Same as C04 for the grid schedule, modulo the angle rewrite.
  * [none] `C06_grid_voltage_frequency`
* **C07** Phase angle follows frequency under angle override — *partial*. Telescoping by induction on the activated prefix. Telescoping and idempotence proved for forward windowed runs; a user-supplied angle is ignored and a step larger than 3 ms past the last event skips its angle update (refuted variants).
  * [none] `C07_angle_follows_frequency`, `C07_user_angle_refuted`, `C07_step_dependence_refuted`
  * [RC] `C07_pi_constant`
* **C08** Event queries never crash — *proved*. Counter-in-range invariant. No-removal histories, angle override on. Crash after removal / with override off are proved as *_refuted findings.
  * [none] `C08_queries_never_raise`, `C08_queries_never_raise_after_reset`, `C08_crash_after_removal_refuted`, `C08_query_without_override_refuted`
* **C09** Removing events — *partial*. Grid/load: lookup after removal; solar: refuted (NameError), plus IndexError after removal. Grid and load removal exact. REFUTED for solar removal and for REMOVE_ALL; after a removal later queries may crash (C08_crash_after_removal_refuted).
  * [none] `C09_remove_grid`, `C09_remove_load`, `C09_remove_solar_refuted`, `C09_remove_all_refuted`
* **C10** Random events are always admissible — *proved*. Linear arithmetic.
  * [none] `C10_random_insolation_accepted`, `C10_random_voltage_accepted`, `C10_random_events_loop`
* **C11** Insolation ramps interpolate and reach their target — *partial*. arange/linspace models; induction on number of points; n=1 refuted. Interpolation/target proved when the ramp has at least 2 points, relative to the value the query at tstart returns; single-point ramp and stale start value refuted.
  * [none] `C11_insolation_ramp`, `C11_single_point_target_refuted`, `C11_wrong_start_refuted`
* **C12** Voltage ramps work — *partial*. Refuted: TypeError for every non-empty range. REFUTED: voltage_ramp raises TypeError for every non-empty ramp (C12_voltage_ramp_refuted). Left of it: a ramp without points is accepted, and no call changes the schedules beyond the query of the voltage at its start.
  * [none] `C12_voltage_ramp_refuted`, `C12_no_ramp_adds_events_partial`
* **C13** Event specifications are per instance — *partial*. Two-instance model of the class-level dictionary; refuted. REFUTED: the spec dictionary is class-level. Isolation holds for instances created without events_spec and for rejected specs.
  * [none] `C13_spec_isolation_refuted`, `C13_spec_isolation_partial`
* **C14** Low-voltage trip characterised by the voltage history — *proved*. Fold over sample list of the per-zone step; iff with a declarative history predicate. iff over the whole history of processed samples, any settings, also with LFRT enabled.
  * [none] `C14_lvrt_trip_iff_history`, `C14_trip_flag_and_latch`
* **C15** High-voltage trip characterised by the voltage history — *proved*. Mirror of C14. mirrored
  * [none] `C15_hvrt_trip_iff_history`
* **C16** A trip is permanent — *proved*. Invariant. LFRT disabled (default); with LFRT enabled see C63.
  * [none] `C16_trip_is_permanent`
* **C17** Ride-through logic ignores repeated and backward solver times — *proved*. Direct.
  * [none] `C17_old_times_ignored`
* **C18** Healthy voltage never disturbs the DER — *proved*. Invariant by induction.
  * [none] `C18_healthy_voltage`, `C18_healthy_with_lfrt`
* **C19** Momentary cessation timing — *proved*. Invariant over history. entry, exit and set conditions.
  * [none] `C19_cessation_entry`, `C19_cessation_exit`, `C19_cessation_set`
* **C20** Momentary cessation persists while the voltage is in the zone — *partial*. Refuted with a two-zone witness; single-zone version proved. REFUTED in general (zones share one flag: leaving an inner zone clears the flag of an outer one). Proved for the zone with the lowest threshold, e.g. the template settings.
  * [none] `C20_persists_refuted`, `C20_persists_lowest_zone_partial`
* **C21** Overvoltage on any phase is detected — *partial*. Refuted for 'minimum' (and 'average'); proved for equal phases. REFUTED: with the default minimum measurement a single-phase overvoltage is never seen. Proved when all phases exceed the threshold.
  * [none] `C21_single_phase_overvoltage_refuted`, `C21_all_phases_overvoltage_partial`
* **C22** Disconnection happens only after trip/cessation plus delay — *proved*. Invariant over history. necessary condition and converse.
  * [none] `C22_disconnect_only_after_delay`, `C22_disconnect_happens`, `C22_disconnect_only_after_delay_with_lfrt`
* **C23** A short disturbance does not use up the disconnect delay — *partial*. Refuted by witness. REFUTED: the disconnect timer is never cleared when the flag clears. Proved for the first disturbance.
  * [none] `C23_fresh_delay_refuted`, `C23_first_disturbance_partial`
* **C24** Reconnection requires an uninterrupted restore delay — *proved*. Invariant over history. necessary condition and converse (strict delay).
  * [none] `C24_reconnect_needs_delay`, `C24_reconnect_happens`, `C24_reconnect_needs_delay_with_lfrt`
* **C25** References are zero whenever disconnected — *proved*. Direct, every branch.
  * [none] `C25_references_zero_when_disconnected`
* **C26** Volt-VAR resumes after reconnection — *partial*. Refuted; invariant: once disconnected, disabled for ever. REFUTED: Volt-VAR stays off for ever after the first disconnection. Proved: untouched while connected.
  * [none] `C26_volt_var_resumes_refuted`, `C26_untouched_while_connected_partial`
  * [R] `C26_reference_zero_after_disconnect_partial`
* **C27** Accepted VRT settings are sane — *proved*. iff by induction over zone list.
  * [none] `C27_accepted_iff_sane`
* **C28** Frequency ride-through trips on sustained underfrequency only — *partial*. LFRT step model; history characterisation; crash after trip refuted. Characterisation of LFRT_TRIP proved. REFUTED: every evaluation after the trip raises AssertionError while the DER is connected.
  * [none] `C28_lfrt_trip_iff_history_partial`, `C28_no_crash_refuted`
* **C29** Frequency ride-through settings are per instance — *partial*. Heap model of shared dictionaries; refuted for FRT, proved for VRT. REFUTED: LFRT zones are shared dictionaries. Proved with LFRT disabled for any interleaving of DERs.
  * [none] `C29_isolation_refuted`, `C29_instantaneous_trip_refuted`, `C29_isolation_without_lfrt_partial`
* **C30** Volt-VAR output is bounded and has the right sign — *proved*. lra over Q. complete input/output description at a new time, edges, monotonicity.
  * [R-] `C30_curve_edges`
  * [R] `C30_volt_var_output`, `C30_non_increasing`, `C30_active_indicator`
* **C31** Volt-VAR never exceeds the inverter capability — *partial*. Refuted in hold band; proved elsewhere. REFUTED: inside the hysteresis bands (and for repeated times) the old reference is returned although the capability has shrunk. Proved: fresh outputs respect the capability; over any history |Q| <= 0.44*S.
  * [R] `C31_capability_refuted`, `C31_fresh_output_partial`, `C31_history_bound_partial`
* **C32** Reactive capability limit — *proved*. Reals, sqrt.
  * [R] `C32_reactive_capability`
* **C33** Reference current ramp limit — *proved*. Q, per step and by induction. three-phase DER types, exact rational arithmetic.
  * [none] `C33_step`, `C33_constant_Vdc`, `C33_rate_over_history`, `C33_reaches_constant_command`
* **C34** Ramp limit holds for every solver step — *partial*. Refuted for backward time and single phase. REFUTED for backward steps (full jump to the command) and for single-phase DERs (t_iref never updated). Proved: what holds for arbitrary times and single-phase.
  * [none] `C34_three_phase_refuted`, `C34_single_phase_refuted`, `C34_any_time_partial`, `C34_single_phase_partial`
* **C35** DC-link reference schedule — *proved*. As events.
  * [none] `C35_add_validation`, `C35_add_replaces_exactly`, `C35_schedule_sane`, `C35_follows_schedule`
* **C36** DC-link ramps — *partial*. Proved for a first ramp; refuted for second down-ramp and rate. REFUTED as stated: after a downward ramp every ramp raises IndexError, the slope is 4 V/s instead of the documented 1 V/s, and a ramp from a held Vdc outside the MPP window raises ValueError (C36_*_refuted). C36_ramp_reaches_target_partial: a ramp in either direction from a valid state does reach its target in monotone steps.
  * [none] `C36_ramp_reaches_target_partial`, `C36_ramp_after_downward_ramp_refuted`, `C36_documented_rate_refuted`, `C36_ramp_from_held_voltage_refuted`
* **C37** DC-link schedules are per instance — *partial*. Refuted (class attribute). REFUTED as stated: the schedule list is a class attribute shared by all DER objects (C37_*_refuted); the partial theorem covers a single DER per process.
  * [none] `C37_isolation_refuted`, `C37_isolation_partial`
* **C38** Parameter precedence — *partial*. Model of source lookup over association lists. Precedence keyword > DER entry > template proved for every file, entry and argument list. REFUTED parts: the parent entry plays no role end to end (see C40), a wrongly typed Srated keyword is silently ignored, template values are not type-checked.
  * [none] `C38_parameter_precedence_partial`, `C38_created_der_partial`
* **C39** DER argument resolution — *partial*. idem. REFUTED for wrongly typed keyword arguments (C39_wrong_type_refuted): they are dropped silently when the config has no entry. Proved exactly for well typed arguments and configs, and the general resolution rule.
  * [none] `C39_argument_resolution_partial`, `C39_exact_resolution_partial`, `C39_wrong_type_refuted`
* **C40** Specification inheritance — *partial*. idem. REFUTED: any non-empty parent_config raises AttributeError, because the error path reads self.name before it exists. Proved: the inheritance rule of the specification step itself.
  * [none] `C40_specification_inheritance_partial`, `C40_parent_config_refuted`
* **C41** Every advertised model type can be built — *partial*. Case analysis; refuted for 2 types. REFUTED for 4 of the 7 advertised types: NameError (three-phase NoVrmsFilter and ConstantVdc) or, for the single-phase types, KeyError, for every configuration. Proved: unknown types raise ValueError; the other three get through configuration whenever their settings are accepted.
  * [none] `C41_advertised_types_refuted`, `C41_buildable_types_partial`, `C41_unknown_type_partial`
* **C42** User initial states are honoured — *partial*. Refuted. REFUTED: an initial state argument never changes the initial states, for every value and configuration. Proved: which states come from the configuration file.
  * [none] `C42_initial_state_argument_refuted`, `C42_states_from_configuration_partial`, `C42_dictionary_keys_partial`
* **C43** Parameter dictionaries — *partial*. Association lists. REFUTED: any unknown key is accepted; loading mixes the five types; an ID with a dot loads under its prefix; a DER whose own ID is not the default ID of its type can never create or load another dictionary (all histories); get rejects steadystate_values; copying the default onto itself erases it. Proved: exact frame of update, and the save/load round trip when the default ID is present.
  * [none] `C43_update_partial`, `C43_unknown_type_partial`, `C43_unknown_keys_refuted`, `C43_save_load_partial`, `C43_types_mixed_refuted`, `C43_dotted_id_refuted`, `C43_default_id_refuted`, `C43_steadystate_refuted`, `C43_self_copy_refuted`, `C43_types_by_name_partial`
* **C44** Balanced phasor construction — *proved*. Reals + complex pairs. exact complex arithmetic over R
  * [R] `C44_balanced_set`
* **C45** abc/dq0 transforms are inverse — *proved*. Reals, trig.
  * [R] `C45_dq0_then_abc`, `C45_abc_then_dq0`
* **C46** Symmetrical components reconstruct the phasors — *partial*. Reals; the sign of the negative-sequence operator refuted. REFUTED: phasor_to_negative_sequence rotates phases b and c the wrong way, so zero/positive/negative sequence phasor functions do not reconstruct; C46_partial: phasor_to_symmetrical itself is correct and invertible
  * [R] `C46_components_reconstruct`, `C46_balanced_is_positive_sequence`, `C46_sequence_sets_refuted`, `C46_sequence_sets_partial`
* **C47** PLL error signal — *proved*. Reals, trig.
  * [RC] `C47_pll_error`, `C47_lock_point`
* **C48** RMS measurements — *proved*. Reals.
  * [R] `C48_rms_measurements`
  * [RC] `C48_rms_of_waveform`
* **C49** PV power — *proved*. Reals, exp. exact real arithmetic; the OverflowError branch of math.exp is modelled as an arbitrary threshold
  * [R] `C49_power_total`
  * [RC] `C49_power_zero_and_sign`, `C49_power_monotone_in_insolation`
* **C50** Circuit equations conserve current — *proved*. Complex field algebra.
  * [R-] `C50_pcc_voltage_solves_the_circuit`, `C50_idle_phase_voltage`
* **C51** Power balance at the inverter filter — *proved*. Complex algebra. energy balance along any trajectory of the single- and three-phase ODE, and filter steady state
  * [R-] `C51_pcc_power_balance`
  * [R] `C51_filter_steady_state`
  * [RC] `C51_energy_balance_single_phase`, `C51_energy_balance_three_phase`, `C51_filter_energy`, `C51_total_energy`
* **C52** Jacobian is the derivative of the model — *partial*. Coquelicot `is_derive` for every one of the 11x11, 23/24x24, 11x11 and 10x10 entries; the wrong entries are listed and refuted. REFUTED as stated: in the code the single-phase and single-phase-constant-Vdc J[iaI,wte] has the wrong sign, the three-phase Vrms row is never filled, the balanced matrix uses one phase's share (1/3) of the dc-link and reactive-power couplings, the constant-Vdc active-power rows/columns are wrong, the three-phase constant-Vdc matrix also lacks the phase b and c couplings of xQ and uaI and uses single-phase PLL entries, and in stand-alone mode or after disconnection the matrix is not the derivative. Proved: every other entry of the five matrices is the exact partial derivative (up to the 1e-9 error of the decimal literals for sqrt(3)/2, bounded explicitly) away from switching surfaces, with externally supplied voltage and the DER connected.
  * [none] `C52_state_lists_complete`
  * [RC] `C52_constant_Vdc_partial`, `C52_constant_Vdc_refuted`, `C52_balanced_partial`, `C52_balanced_refuted`, `C52_three_phase_partial`, `C52_three_phase_refuted`, `C52_single_phase_partial`, `C52_single_phase_refuted`, `C52_stand_alone_refuted`, `C52_disconnected_refuted`, `C52_const3_partial`, `C52_const3_refuted`
* **C53** Controller anti-windup — *partial*. Reals. REFUTED part: the applied modulation is not limited and can keep growing while saturated (C53_modulation_limited_refuted). Proved: an integrator component is frozen exactly when it would be driven further in its own direction; unsaturated it is a PI controller; and along every run of all five systems the integrators stay within the limit plus the largest proportional part, so the duty cycle of each axis exceeds its limit by at most twice the proportional part of the largest tracking error.
  * [RC] `C53_inner_integrators_bounded_partial`, `C53_modulation_bounded_partial`, `C53_outer_integrators_bounded_partial`, `C53_integrators_not_driven_further_partial`, `C53_unsaturated_is_PI_partial`, `C53_modulation_limited_refuted`
* **C54** State vector layout — *proved*. Vector layouts as lists of names and values. Layout of y0, ODE_model unpacking, derivative vector and collect_states agree for all 7 model types and all state values; wrong lengths rejected (numba ignores surplus). The Jacobian index table calls the last three-phase state Vrms (C54_jacobian_index).
  * [none] `C54_state_vector_layout`, `C54_wrong_length_rejected`, `C54_solution_columns_stored`, `C54_jacobian_index`
* **C55** Loop-mode restart equals the last solution point — *partial*. Statement-list model of the stored series; invariant over all loop-mode histories; refuted for the filter state. REFUTED for SolarPVDERThreePhase (C55_loop_restart_refuted): collect_states stores Vrms_filter_t while y0 reads Vrms_filter, so that component restarts from its value at construction for ever (C55_three_phase_restart, all histories). Proved for the six other model types and all histories.
  * [none] `C55_loop_restart_partial`, `C55_next_interval_partial`, `C55_three_phase_restart`, `C55_loop_restart_refuted`
* **C56** Trajectory lengths stay consistent — *proved*. Lists; induction over intervals. All histories of intervals and reads after a first interval; odeint is assumed to return one full row per requested time. Float arrays are exact lists.
  * [none] `C56_trajectories_consistent`, `C56_no_duplicate_times`, `C56_batch_trajectories`
* **C57** Time grid — *proved*. Q. Exact rational arithmetic: float rounding in np.arange is not modelled.
  * [none] `C57_time_grid`, `C57_stepping_solver_times`
* **C58** Grid model consistency — *proved*. Q/R state machine. All call orders and event results; grid_events results are universally quantified.
  * [R] `C58_phase_set`, `C58_balanced`, `C58_follows_events`, `C58_recorded_grid`, `C58_recording_is_harmless`, `C58_no_going_back`
* **C59** Reported grid power — *partial*. Algebra; exact relation between the stored series and the true sum, refuted for three-phase models. REFUTED for three-phase models: dynamic_simulation.py:610 applies the factor 1/2 to phase a only, so phases b and c count twice. Proved: exact relation between the stored series and the true sum, equality for single-phase models, for S_t, S_PCC_t and S_load1_t, and for the instantaneous S_G.
  * [R-] `C59_grid_power_partial`, `C59_other_powers`
  * [R] `C59_grid_power_refuted`
* **C60** Per-unit base consistency — *proved*. Field.
  * [R] `C60_base_values_consistent`
* **C61** Solver failures are always reported — *proved*. Lists. odeint status list assumed one entry per step (the code asserts it).
  * [none] `C61_failures_reported`
* **C62** MPP reference clamp — *proved*. Clamp.
  * [none] `C62_initial_reference`, `C62_mpp_reference_clamped`
* **C63** A voltage trip is permanent also with frequency ride-through enabled — *partial*. Witness trace in the combined voltage/frequency model. REFUTED: the frequency logic reconnects a voltage-tripped DER. Proved: it stays disconnected for as long as no frequency trip has occurred (C63_trip_permanent_with_lfrt_partial). The LFRT-disabled case is C16.
  * [none] `C63_trip_permanent_with_lfrt_partial`, `C63_trip_permanent_with_lfrt_refuted`
* **C64** The ride-through logic never aborts a simulation — *proved*. Totality of every branch, induction over the trace.
  * [none] `C64_ridethrough_never_raises`
* **C65** restore_Vdc brings the DC link back after reconnection — *partial*. Witness state; reconnect raises for every held voltage outside the window. REFUTED: reconnecting raises ValueError when the held DC voltage is outside the MPP window. Proved: when reference and set point are inside the window and no downward ramp was made, no evaluation fails and the reconnection schedules a stepwise ramp that ends at the set point (C65_restore_vdc_partial). The restore_Vdc-disabled case is C64.
  * [none] `C65_restore_vdc_partial`, `C65_restore_vdc_refuted`
* **C66** Volt-VAR never acts against the voltage deviation — *partial*. Case analysis over the Volt-VAR bands; hold band refuted. REFUTED: the value held in a hysteresis band can have the wrong sign. Proved outside the hysteresis bands.
  * [R] `C66_direction_refuted`, `C66_direction_partial`
* **C67** Relative phase between phasors — *proved*. Reals, floor-based modulo.
  * [RC] `C67_relative_phase`
* **C68** limit_complex clips the magnitude only — *proved*. Polar form.
  * [RC] `C68_limit_complex`, `C68_time_series`
* **C69** The MPP equation has the maximum-power voltage as its only root — *proved*. Monotonicity of the residual (mean value), uniqueness.
  * [RC] `C69_mpp_root_maximises_power`, `C69_mpp_unique_inside_open_circuit`, `C69_mpp_root_exists`
* **C70** The configured insolation is the one used — *partial*. Case analysis on the MPPT switch. REFUTED with MPPT enabled: fit_MPP_poly leaves Sinsol=100 and Tactual=298.15. Proved for MPPT disabled (default).
  * [R-] `C70_configured_insolation_refuted`
  * [R] `C70_configured_insolation_partial`
* **C71** Balanced model agrees with the full three-phase model — *partial*. Rotation algebra over complex numbers; saturated case refuted by witness. REFUTED for saturated states: the sign based anti-windup is not invariant under 120 degree rotation. Proved: phase-a agreement always, balance preserved whenever the modulation is inside its limit.
  * [RC] `C71_balanced_model_consistent_partial`, `C71_balanced_model_consistent_refuted`
* **C72** Derivatives are per second — *partial*. Change of variable in the derivative; factor exhibited. REFUTED: the returned derivatives are the physical ones divided by wbase (missing factor 377). Proved: exactly that relation, so equilibria are the physical ones.
  * [R] `C72_per_unit_dynamics_partial`
  * [RC] `C72_per_unit_dynamics_refuted`
* **C73** Re-running a simulation reproduces the grid voltage — *partial*. State machine over query times; second run refuted. REFUTED: the last-change time of the grid source is not reset between runs, so in a second run the grid keeps the final voltage until that time is reached again. Proved: every run whose times are non-decreasing and not before earlier calls follows the schedule.
  * [R] `C73_rerun_refuted`, `C73_rerun_partial`
* **C74** Selectable solvers — *partial*. Statement model of the solver wrapper. REFUTED: creating a simulation with ode-vode-bdf always raises AttributeError, unknown solver names give AttributeError; the alternative solver never sets the convergence flag. Proved: with odeint the flag/exception is exact.
  * [none] `C74_solver_selection_refuted`, `C74_stale_convergence_refuted`, `C74_odeint_flag_partial`
* **C75** Reading trajectories is harmless — *partial*. Invariant over histories with reads; empty history refuted. REFUTED before the first interval: reading raises TypeError and makes y0 unreadable for every model with a DC-link state. Proved after at least one interval of two or more points.
  * [none] `C75_reading_harmless_partial`, `C75_reading_harmless_refuted`
* **C76** A batch run starts from the DER's current state — *proved*. Direct from the batch-run model. Consequence: a second batch run continues from the state left in the DER instead of repeating the first.
  * [none] `C76_batch_starts_from_der_state`
* **C77** A DER always has an initial state vector — *partial*. Model of initialize_states over all configurations. REFUTED: with steadyStateInitialization off a SolarPVDERThreePhase has no Vrms_filter and reading y0 raises AttributeError, for every configuration. Proved for the other two buildable types. The steady-state branch (numerical minimiser) is not modelled here.
  * [none] `C77_initial_state_vector_refuted`, `C77_other_types_partial`
* **C78** Every documented keyword argument has an effect — *partial*. Non-interference: construction result does not depend on the argument, for all configurations. REFUTED: powerRating, VrmsRating, derConfig, derId, ia0, xa0, ua0, xDC0, xP0, xQ0, xPLL0 and wte0 have no effect for any configuration. Proved: each of the other arguments has an effect in some configuration (C78_effective_arguments_partial; identifier and allowUnbalancedM are covered by C104 and C85).
  * [none] `C78_arguments_without_effect_refuted`, `C78_effective_arguments_partial`, `C78_switches_partial`
* **C79** Ride-through settings resolution — *proved*. Total characterisation of the lookup. Every configuration file, DER entry and argument list.
  * [none] `C79_ridethrough_settings`, `C79_dangling_reference_rejected`, `C79_missing_settings_rejected`
* **C80** Verbosity argument — *partial*. Case analysis of the verbosity dispatch. REFUTED: with any integer verbosity construction fails for every configuration. Proved: exactly the five names are accepted.
  * [none] `C80_integer_verbosity_refuted`, `C80_named_levels_partial`
* **C81** Infeasible voltage ratings are rejected — *partial*. Reals; inequality on ratings. Proved for every positive rated voltage (C81_infeasible_ratings_rejected, C81_rated_voltage_reachable). REFUTED for a negative VrmsRating, which passes every check (C81_negative_rating_refuted).
  * [R] `C81_negative_rating_refuted`
  * [RC] `C81_infeasible_ratings_rejected`, `C81_rated_voltage_reachable`
* **C82** Per-unit parameters and rated current — *partial*. Field algebra. Per-unit conversion and rated current proved. REFUTED for the load inductance, which is computed from the line impedance instead of the load impedance.
  * [R] `C82_per_unit_values`, `C82_rated_current`, `C82_load_inductance_refuted`
* **C83** External grid voltage units — *partial*. Scaling identity; witness. REFUTED: creation divides the voltage by Vbase (500), update does not, so the same value is over 400 times the rated voltage later. Proved when the caller converts the later values itself.
  * [RC] `C83_voltage_units_refuted`, `C83_converted_voltage_partial`
* **C84** A converged steady state solves the circuit — *proved*. Sum-of-squares bound on the minimised error. Single and three phase, balanced and free duty cycles.
  * [R] `C84_single_phase_residuals`
  * [RC] `C84_three_phase_residuals`, `C84_balanced_modulation_term`
* **C85** Steady-state start is an equilibrium — *partial*. Derivative bounds from C84 through the ODE model. Derivative bounds at the start proved for single phase and balanced three phase. REFUTED for allowUnbalancedM with unbalanced currents; the PLL error at the start is the imaginary part of the PCC voltage, so a stand-alone start is not at rest in general.
  * [RC] `C85_three_phase_near_equilibrium`, `C85_three_phase_equilibrium`, `C85_pll_error_at_start`, `C85_unbalanced_option_refuted`, `C85_single_phase_near_equilibrium`, `C85_single_phase_pll_error`
* **C86** Initial controller integrators match the initial current — *partial*. Evaluation log of the minimiser is universally quantified. REFUTED: the integrators are taken from the last point the minimiser evaluated (C86_integrators_refuted); the distance from rest is bounded by that offset (C86_integrators_partial). Non-convergence always raises ValueError.
  * [R] `C86_no_convergence_is_an_error`, `C86_initial_integrators`
  * [RC] `C86_integrators_refuted`, `C86_integrators_partial`
* **C87** validate_model compares equal quantities — *partial*. Complex algebra. Proved for single phase and SolarPVDERThreePhase, and for filter power in every type. REFUTED for the other three-phase types: the RMS figure covers one phase only.
  * [RC] `C87_terminal_power_partial`, `C87_other_three_phase_refuted`, `C87_filter_power`
* **C88** The PLL synchronises with a steady grid — *proved*. Energy (Lyapunov) function of the loop, mean value theorem, finitely-often argument (uses `classic`). All five systems of equations (three-phase ones with balanced voltage). The energy barrier is needed: in exact opposition the loop never locks (C88_opposition_never_locks).
  * [RC] `C88_frequency_locks`, `C88_excursion_bounded`, `C88_phase_locks`, `C88_phase_locks_at_grid_frequency`, `C88_locked_stays_locked`, `C88_opposition_never_locks`
* **C89** Voltage unbalance measure — *proved*. Case analysis on max/min. For magnitudes; the function does not accept complex phasors.
  * [R-] `C89_unbalance_measure`
* **C90** Estimated grid frequency — *partial*. Invariant over the sample list (telescoping). REFUTED: the estimate is 2*pi*60 + 1000*(angle - initial angle), so a phase step leaves a permanent error. Closed form and the constant-angle case proved.
  * [RC] `C90_estimate_closed_form_partial`, `C90_steady_grid_partial`, `C90_estimate_refuted`
* **C91** Stored series are the quantities in use — *partial*. Pointwise equality of series and model quantities for each model type. Proved for all series but the two refuted ones: Ppv_t of a disconnected DER is not zero, and phase b/c voltages of the balanced model on an unbalanced stand-alone grid are not those used by the model.
  * [R] `C91_phase_rms`
  * [RC] `C91_series_partial`, `C91_series_refuted`
* **C92** High-voltage-side voltage series — *partial*. The circuit equations of C50. Proved in the phases with an inverter. REFUTED in the idle phases of a single-phase DER, where the source voltage is stored.
  * [R] `C92_hv_voltage_partial`, `C92_idle_phases_refuted`
* **C93** Power transfer series — *partial*. Polar form of line power. REFUTED: a formula for a purely inductive line is used for every impedance, and it gives one phase of three. Proved for balanced lossless lines as power per phase.
  * [RC] `C93_power_transfer_partial`, `C93_power_transfer_refuted`
* **C94** Filtered voltage measurement — *proved*. Integrating factor e^(t/T) and mean value theorem. Exact-real solutions of the filter equation; the ODE solver error is outside the model.
  * [RC] `C94_filter_stays_in_range`, `C94_step_response`, `C94_detection_delay`, `C94_converges`
* **C95** A disconnected DER is inert — *proved*. Non-interference by computation; equilibrium algebra. All five systems of equations. C95_output_vanishes: along every solution the current and the power at the connection point tend to zero.
  * [RC] `C95_isolated_from_set_points`, `C95_references_zero`, `C95_no_infeed`, `C95_equilibria_deliver_nothing`, `C95_output_vanishes`, `C95_isolated_all_models`, `C95_equilibria_all_models`
* **C96** Equilibria meet the set points — *proved*. Equilibrium algebra, both directions. Unsaturated states; all five systems of equations.
  * [RC] `C96_single_phase`, `C96_three_phase`, `C96_balanced`, `C96_constant_Vdc`, `C96_delivered_power`, `C96_three_phase_constant_Vdc`, `C96_losses_all_models`
* **C97** Alternative implementations of the three-phase model agree — *partial*. List-level transcription of the two other implementations; component-wise rewriting into the standard model. Derivatives proved equal on every vector. REFUTED for limit_complex with limits in the wrong order: the compiled version returns a phasor where the Python one raises AssertionError (C97_limit_check_refuted). The Jacobians are textually those of the standard class and are not modelled again; that numba.njit computes what the Python text says is trusted.
  * [R-] `C97_initial_vector_round_trip`
  * [RC] `C97_utilities`, `C97_limit_check_refuted`, `C97_compiled_model_agrees`, `C97_unfiltered_model_agrees`, `C97_same_on_every_vector`
* **C98** Ride-through acts on the selected voltage measurement — *partial*. Model of the selection and of the attributes each class has; case analysis and induction over the history of states. REFUTED: the filtered option on the six model classes without a filter state stays at the initial voltage for ever, so a fault is never seen; without steady-state initialisation it raises AttributeError. Proved for the other options and for the classes with a filter state.
  * [none] `C98_selected_voltage_decides_partial`, `C98_filtered_is_frozen_refuted`, `C98_filtered_missing_refuted`, `C98_reading_agrees`
* **C99** Grid events given by phase angle — *partial*. Exact step lemma and invariant over the run, as for the override case (C06, C07). Proved for schedules whose steps give a frequency in range. REFUTED for the rest: a step beyond about +0.0126 or -0.0252 rad is accepted when scheduled and then makes every query in its window raise ValueError (C99_larger_step_refuted). When the solver skips the 3 ms window the scheduled frequency is returned instead of the step frequency.
  * [none] `C99_scheduled_angle_kept_partial`, `C99_frequency_follows_angle_partial`, `C99_queries_keep_angles`, `C99_larger_step_refuted`
* **C100** New events object — *proved*. Induction over the nested argument; computation on the fresh object. Numeric specification values.
  * [none] `C100_events_spec_applied`, `C100_new_object_defaults`, `C100_documented_defaults`
* **C101** Three-phase DER with constant DC voltage — *proved*. ode3c models ODE_model of the three-phase constant-Vdc class; equilibria and zero-reference behaviour by case analysis over the state variables, equivalence with odec by the rotation lemmas of CircuitProperties3. Equilibrium statements are for unsaturated states; saturated behaviour is C53.
  * [RC] `C101_equilibria_meet_set_points`, `C101_delivered_power`, `C101_disconnected_is_inert`, `C101_is_three_single_phase`
* **C102** Error type of each documented misuse — *proved*. Case analysis over the look-ups in the order the code makes them; both directions (refused when missing, never refused when present) where the function does nothing else. The order of the checks relative to the rest of the constructor is C38-C41.
  * [none] `C102_grid_model_required`, `C102_measurements_required`, `C102_model_type`, `C102_parameter_missing`, `C102_parameter_dictionary`, `C102_missing_file`, `C102_measurement_type`, `C102_ride_through_table`, `C102_loop_arguments`
* **C103** Plots of a simulation — *partial*. A table of labels with the series and dimension each promises, independent of the code; the branch table of group_quantities_for_plotting is shown to realise it and the lengths of the recorded series to agree, by induction over the curves. REFUTED as stated (C103_all_types_refuted, C103_loop_mode_refuted): the "voltage" plot always fails with AttributeError (vdg_t is never assigned), three advertised types fail with UnboundLocalError, power and active_power fail for grid-connected DERs, and stand-alone plots fail in loop mode after two or more intervals. Proved: every other advertised type draws one honest curve per label (the all-phases voltage and duty-cycle plots show phase a only), the unit scaling, the refusals and the external comparison.
  * [none] `C103_plots_batch_partial`, `C103_plots_loop_partial`, `C103_units`, `C103_unknown_or_unavailable`, `C103_all_types_refuted`, `C103_loop_mode_refuted`, `C103_compare_external`
* **C104** Instance names are unique — *proved*. Counters per class over a list of constructions; the text after the last underscore and the last dash determines number and class (decimal printing is injective and uses neither character), and counters strictly increase.
  * [none] `C104_names`, `C104_unique`
* **C105** Ride-through enable flags — *proved*. Invariants over rt_run: a disabled side is a frame of every evaluation; the calm state (fresh zones, no flags) is preserved when the enabled side sees no excursion.
  * [none] `C105_disabled_side_is_inert`, `C105_all_disabled`, `C105_low_voltage_ignored`, `C105_high_voltage_ignored`, `C105_disabling_does_not_release`
* **C106** Overfrequency trips — *partial*. Relational invariant: FRT computes the same zone list for any two frequencies above threshold plus dead band; thresholds never change. REFUTED: the HFRT settings and HFRT_ENABLE are never read by an evaluation. C106_overfrequency_refuted: any two histories that differ only in frequencies above the low-frequency thresholds lead to identical states, so an overfrequency of any size and duration is treated as nominal frequency.
  * [none] `C106_overfrequency_refuted`
* **C107** Event listing is complete and chronological — *proved*. The listing is modelled as the loop over the three sorted lists; permutation + sortedness by induction, uniqueness from the reachable-schedule invariant of C01.
  * [none] `C107_listing`, `C107_no_duplicates`
* **C108** A DER can be switched to another parameter set — *partial*. Method lookup over the class table extracted from the source (which class defines which method, linearised bases); evaluation of the modelled call for every type. REFUTED: C108_switch_refuted — modify_DER_parameters looks up self.get_DER_id, which no DER class defines (only the wrapper), so every call on a DER raises AttributeError; C108_wrapper_refuted — on the wrapper the next step fails likewise. There is no positive part.
  * [none] `C108_switch_refuted`, `C108_wrapper_refuted`
* **C109** Displayed parameters are the configured ones — *partial*. Composition of setup_DER (ConfigModel) with the modelled display; every printed entry traced to its configuration entry by the lookup lemmas. Proved end to end from setup_DER for the types with a DC link state (C109_displayed_parameters_partial) and the rejection of unknown types. REFUTED for the constant-Vdc types (C109_constant_Vdc_refuted: circuit_parameters raises AttributeError) and for the filter time constant of the RMS voltage measurement (C109_Tfilter_never_shown_refuted).
  * [none] `C109_displayed_parameters_partial`, `C109_constant_Vdc_refuted`, `C109_Tfilter_never_shown_refuted`, `C109_unknown_type`
* **C110** Load changes take effect — *partial*. Composition of the load-event lookup (C04) with update_Zload1; induction over the sequence of evaluation times. Proved for all interpreted types and every schedule (C110_load_follows_schedule_partial, C110_external_grid). REFUTED for the compiled type SolarPVDERThreePhaseNumba (C110_compiled_type_refuted: AttributeError at the first load change).
  * [none] `C110_load_follows_schedule_partial`, `C110_external_grid`, `C110_compiled_type_refuted`
* **C111** Displayed states are the states — *partial*. Table of the attributes each method assigns per class; the printed (label, value, unit) triples compared with an independent table of meanings, for arbitrary values. Proved: which lines are shown and that each is the named quantity in physical units, for all types (C111_displayed_states_partial), rejection of unknown quantities. REFUTED for three-phase voltages (C111_three_phase_voltages_refuted: the second terminal voltage is labelled Vtb instead of Vtc and Vn shows the sum of the terminal voltages) and for the unit of Irms.
  * [none] `C111_displayed_states_partial`, `C111_three_phase_voltages_refuted`, `C111_readable_quantities`, `C111_unknown_quantity`
* **C112** Debug output is harmless — *partial*. Attribute table of C111; the evaluation with debug output compared with the one without for an arbitrary right-hand side. Proved for the power, current and PLL flags in stand-alone simulations and PLL otherwise (C112_debug_output_harmless_partial). REFUTED for the voltage and controller flags, and for current and power flags with an external grid: AttributeError at the first evaluation, for every type (C112_debug_output_refuted).
  * [none] `C112_debug_output_harmless_partial`, `C112_debug_output_refuted`
* **C113** Optional per-phase and line-to-line results — *partial*. Reals: peak of re(u e^jx) equals |u|; algebra for the balanced set; attribute table for the single-phase types. Proved for all three-phase types (C113_line_to_line, C113_optional_results). REFUTED for the single-phase types: Vabrms_calc always raises AttributeError (C113_single_phase_refuted).
  * [none] `C113_single_phase_refuted`
  * [R] `C113_optional_results`
  * [RC] `C113_line_to_line`
* **C114** Frequency ride-through does not interfere with voltage ride-through — *partial*. Erasing the frequency part commutes with every evaluation while LFRT has not tripped (simulation proof by induction on the history); quietness characterised through C27. Proved: the whole run with LFRT equals the run without it up to the frequency timers while LFRT has not tripped, and not tripped is exactly the history condition; C18, C22, C24 carry over (C18_healthy_with_lfrt, ...). REFUTED after an LFRT trip: the next evaluation raises AssertionError instead of disconnecting (C114_after_trip_refuted).
  * [none] `C114_lfrt_transparent`, `C114_quiet_iff_history`, `C114_after_trip_refuted`
* **C115** Frequency ride-through settings — *partial*. Decision procedure over Q, case analysis on the level list; witnesses by computation. Proved: acceptance is exactly the ordering of the first two levels and limits stay as configured with the option off. REFUTED: the option leaves the high-frequency limits unchanged, sets 30 cycles (0.5 s) instead of one cycle (longer than the default level-1 limit), and further levels and all limits are unchecked (C115_instantaneous_refuted, C115_further_levels_refuted).
  * [none] `C115_frequency_settings_partial`, `C115_instantaneous_refuted`, `C115_further_levels_refuted`
* **C116** Displayed ride-through settings — *partial*. Printout as a list of lines; induction on the list of levels. Proved: for LVRT, HVRT and the first two LFRT levels each level is shown with its own settings. REFUTED: PER_UNIT has no effect, HFRT is rejected with ValueError, further LFRT levels are not shown (C116_display_refuted).
  * [none] `C116_displayed_settings_partial`, `C116_display_refuted`
* **C117** Jacobian self-check — *proved*. Reals: Taylor-Lagrange bound of the central difference, then case analysis of the comparison loop by induction on rows and columns. Central differences over exact reals with step 1e-6; the finite-difference error bound M/6e12 appears in the statement; float rounding not modelled.
  * [RC] `C117_jacobian_self_check`
* **C118** Overload rating — *partial*. Frame argument over the five right-hand sides; the integrator law by case analysis; equilibria of C96 are kept when the limit changes. Proved: the rating only stops the outer-loop integrators, exactly when the request exceeds it and the integrator moves away from zero; references and all other dynamics do not depend on it. REFUTED: the reference is not bounded and an operating point at twice the limit persists (C118_overload_refuted).
  * [RC] `C118_only_integrators_partial`, `C118_integrator_law_partial`, `C118_overload_refuted`
* **C119** Shipped configuration file — *partial*. The file is transcribed into the model by script (ShippedConfig.v); a general acceptance lemma for setup_DER is proved for all arguments and its side conditions are evaluated on the file. Proved for the entries 50, 250 and 50_balanced, for the configuration phase of construction (setup_DER and initialize_DER up to the grid measurements; what follows is numerical, see C81, C82 and C84). REFUTED for the seven others (50_numba, 50_type1, 250_numba, 10, 1, 10_constantVdc, 50_constantVdc): no arguments build them (C119_shipped_refuted). C119_entries: these ten are all the DER entries of the file.
  * [none] `C119_shipped_partial`, `C119_shipped_refuted`, `C119_entries`
* **C120** Reading the log back — *partial*. Text as character lists; str.split, splitlines and strip modelled; induction over records and columns; parsers are parameters. Proved for all sequences of records without "::", trailing ":" or line ends in a column (read back exactly, filter exact). REFUTED otherwise: a message with "::" is cut and its rest reported as the thread name, one multi-line message or one non-json error record makes the whole log unreadable, and the wrapper itself writes such a record for an unknown configuration id (C120_unknown_id_refuted). dateutil and json parsers are universally quantified parameters.
  * [none] `C120_unknown_id_refuted`, `C120_stripped_text`
* **C121** First-order time constant of a recorded response — *partial*. Reals; search loop by induction over samples; exp/ln monotonicity and explicit rational bounds of exp. Proved: what is printed for every series (C121_reported), and for falling exponentials the reported value lies in (T, T+h] with 0<T<tau, and above 0.9 tau if the record lasts 5 tau. REFUTED for rising responses: the time of the first sample is reported whatever the response (C121_rising_refuted).
  * [R-] `C121_reported`, `C121_rising_refuted`
  * [RC] `C121_falling_partial`
* **C122** Rejected solver steps — *partial*. Runs of marked evaluations; congruence of the ride-through step with respect to equal decisions; C17 for old times; witnesses by computation. Proved: discarded evaluations at times already seen have no influence, for every schedule. REFUTED for trials ahead: a discarded trial can suppress a due trip, and discarded trials alone can trip a DER whose accepted voltage is always healthy, with steps within the solver limit of 1/120 s; accepted points not later than an earlier trial are never seen (C122_shadowed_refuted).
  * [none] `C122_old_trials_partial`, `C122_trials_refuted`, `C122_shadowed_refuted`
* **C123** Fault current of the filter — *proved*. Solutions over Reals; derivative of sqrt(|i|^2+eps^2)*exp(Rt/L) by the mean value theorem, eps to 0. All five systems of equations (single, three-phase, balanced, both constant-Vdc), every input trajectory; frequency-independent.
  * [RC] `C123_filter_current`, `C123_free_decay`
* **C124** Current-controller error signal — *proved*. Barrier lemma (a function that cannot grow while above M stays below M) by completeness of R and the mean value theorem. All five systems, both axes, saturated or not.
  * [RC] `C124_error_signal`
* **C125** DC-link energy and ceiling — *partial*. Mean value theorem for the stored energy; barrier lemma for the ceiling; explicit solution sqrt(V0^2+2ct) as counterexample. Proved for every run: two-sided energy balance, and the ceiling when the clamp Vdcmpp_max is not below the open-circuit voltage. REFUTED otherwise: above the clamp the PV power no longer depends on the DC voltage, so with the shipped 10 kVA array (clamp 800 V, still delivering current there) a connected inverter that converts nothing reaches every DC voltage.
  * [RC] `C125_energy_partial`, `C125_ceiling_partial`, `C125_ceiling_refuted`
* **C126** Co-simulation steps — *partial*. Sessions of calls related to the intervals they mean; induction with the invariant of C71-C78 (SimProofs). Proved for whole sessions of steps and reads: the returned trajectories are exactly the concatenation of the intervals, the recorded voltages are the supplied ones, and a call without phase A voltage, y0 or t is refused without any change. REFUTED: a three-phase call without phase B or C is not refused but fails with TypeError after the DER voltages were overwritten; for a stand-alone DER the voltages are demanded and ignored.
  * [none] `C126_session_partial`, `C126_recorded_voltages_partial`, `C126_refused_partial`, `C126_missing_phase_refuted`, `C126_standalone_refuted`
* **C127** Grid events of a simulation act on its DER — *partial*. Heap of Grid objects indexed by reference; C58 for the addressed object; other references untouched by induction over the history. Proved when the DER, the simulation and the Grid share the same Grid and events objects. REFUTED otherwise although nothing is refused: with a second Grid the DER never sees any event, with a second events object the recorded grid differs from the simulated one wherever the schedules differ.
  * [R] `C127_same_objects_partial`, `C127_two_grids_refuted`, `C127_two_schedules_refuted`
* **C128** Creating a simulation — *partial*. Case analysis over the order of checks in the constructor, with the state returned also on exception. Proved: exact success condition and exception of every combination. REFUTED: jacFlag is refused for SinglePhaseConstantVdc, ThreePhaseConstantVdc and the Numba model although they define the Jacobian; a refused creation has used up a simulation number and changed events.del_t_event.
  * [none] `C128_creation_partial`, `C128_jacobian_refuted`, `C128_refused_traces_refuted`
* **C129** The current controller reaches its reference — *proved*. Lyapunov function of the phase current, filtered error and integrator (quadratic, insensitive to the rotation), comparison lemma, Thevenin form of the stand-alone circuit. All five systems of equations, stand-alone (source impedance of line, grid and load) and co-simulation, constant or settling reference, DC and grid voltage; the shipped gains satisfy the condition on the gains. Saturated duty cycle is outside the statement (see C53, C124).
  * [RC] `C129_follows_settling_reference`, `C129_current_settles`, `C129_reaches_reference`
* **C130** Displayed phase angles — *partial*. np.angle modelled as the principal argument over Reals; uniqueness from injectivity of exp(j.) on (-pi,pi]; witness for the unwrapped difference. Stored angles proved. REFUTED for the plotted difference: it is not wrapped, so phasors on either side of the negative real axis show a difference that is off by a full turn. Proved: correct modulo a turn, and exact when both phasors are in the right half plane.
  * [RC] `C130_refused_iff_lengths_differ`, `C130_stored_angles`, `C130_difference_partial`, `C130_difference_refuted`
* **C131** A failed run does not disturb the next one — *partial*. A batch run as an arbitrary list of queries on the event schedules followed by the reset or by an exception; schedule preserved by queries (invariant), then C04/C06; witness for the failed run. REFUTED after a run that raised: run_simulation resets the event counters only when the solver returns, so the next run starts in the event reached by the failed one. Proved after completed runs, and after failed ones once reset_event_counters is called.
  * [none] `C131_next_run_follows_schedule_partial`, `C131_after_failed_run_refuted`
* **C132** The equations determine the run — *partial*. Pairs of trajectories over Reals: every term of the right-hand side is Lipschitz along bounded trajectories (near calculus), Gronwall on the squared distance, then a first-departure argument so that only one of the two runs must be clear of its limits. Existence: Picard iteration on a box around the initial state that stays inside the limits. Non-existence: mean value theorem on the squared modulus of the duty cycle. REFUTED: the anti-windup switches the derivatives off only strictly above the limit, so from a duty cycle exactly at its limit and pushed outwards the equations have no solution for any length of time (any model; witness: a DER disconnected by a fault). Proved, all five models: from every state strictly inside the modulation and current limits (DC voltage positive) with inputs that do not jump there is a run for a positive time and it is the only one, and it continues to the end of the interval unless it comes near a limit, grows beyond every bound or its DC voltage vanishes; at most one run for as long as one of them stays clear of its limits.
  * [RC] `C132_unique_partial`, `C132_no_run_at_limit`, `C132_some_run_refuted`, `C132_continues_partial`, `C132_exactly_one_partial`
* **C133** Small changes of the initial state change the run little — *proved*. Lipschitz constant uniform in a tube around the run (near calculus over pairs of points), continuation theorem of C132, Gronwall growth bound and a bootstrap argument (the bound reproduces itself, so it is never crossed). All five models; the constant depends on the run, not on the second initial state. Stated for runs inside the limits, outside of which C132 shows there may be no run at all.
  * [RC] `C133_small_changes_stay_small`
* **C134** Grid events are converted with the time step of the simulation — *partial*. Transition system of the step attributes over histories of creations and assignments (induction over histories); closed form of the grid query at an event that becomes active; refutation by computed witness. REFUTED: assigning the time step of a simulation after its creation (as the repository's tests and notebooks do) leaves the step of the events object at 0.001 s, so a small phase jump is reported with a frequency deviation 8 times too large, or an admissible event aborts the run with ValueError. Proved: the conversion for every step of the events object and every schedule; the two steps agree as long as neither is assigned, and after the user copies the step, until the next assignment to them or creation.
  * [none] `C134_conversion`, `C134_unassigned_steps_agree_partial`, `C134_copied_step_agrees_partial`, `C134_own_step_refuted`
* **C135** Small changes of the inputs change the run little — *proved*. The Lipschitz calculus of C132/C133 over pairs (inputs, state), including the array power as a function of irradiance; Gronwall growth of the squared distance plus the squared change; bootstrap argument and continuation theorem. All five models; the constant and the admissible change depend on the run, not on the changed inputs. Stated for runs inside the limits, outside of which C132 shows there may be no run at all; temperature and array layout are not varied.
  * [RC] `C135_small_input_changes_stay_small`
* **C136** A run ends only at a limit — *proved*. Stored energy (DC voltage and filter currents) grows at most exponentially, independent of the frequency; then the outer-loop errors, integrators, error filters, inner integrators, PLL and voltage filter are bounded one after the other; combined with the continuation theorem of C132. All five models. Margin d and DC voltage floor c are arbitrary positive numbers. Assumes a non-zero DC capacitance and a DC voltage base that is not negative; what happens at the limits is C132.
  * [RC] `C136_no_state_runs_away`, `C136_ends_only_at_a_limit`, `C136_one_run_over_the_interval`
* **C137** It does not matter which phase is called a — *partial*. Renaming as a map on states and inputs (linear in the states); each term of the right-hand side is shown to be carried over: PCC voltage and terminal voltage, powers, references, PLL input (thirds of a turn); runs by differentiating the linear map; uniqueness from C132. REFUTED as stated in two ways: at the modulation limit (the anti-windup tests compare signs of real and imaginary parts, so the integrators of the renamed phases move differently), and for voltages with a negative-sequence component when the clock is left alone (the PLL sees that component at another angle). Proved: while the duty cycles are within their limit, the renamed run is a run once clock and PLL angle are moved by a third of a cycle - exact also for unbalanced voltages - or, without negative-sequence voltage, on the same clock; it is the only run from the renamed start while clear of the limits; and all totals and magnitudes agree in every state.
  * [R] `C137_three_times`
  * [RC] `C137_relabelled_run_partial`, `C137_third_of_a_cycle_partial`, `C137_balanced_voltages_partial`, `C137_same_results`, `C137_determined_partial`, `C137_which_phase_is_a_refuted`, `C137_same_clock_refuted`
* **C138** The start time of a simulation does not matter — *partial*. The clock enters the equations through the PLL input only; closed forms of that input in the sines and cosines of grid angle and PLL angle are invariant under whole turns, common half turns and, without negative sequence, common rotations; runs by the chain rule, uniqueness from C132. REFUTED as stated: absolute time enters through the angle of the grid voltage, so a start a quarter of a cycle later from the same state makes the PLL pull in again. Proved, for all models and also at the limits: exact for a delay of whole cycles (PLL angle unchanged or moved by whole turns); exact for half cycles if the initial PLL angle is moved along; exact for any delay if the initial PLL angle is moved along and there is no negative-sequence voltage (always the case in the single-phase and balanced models). Clear of the limits the delayed run is the only one.
  * [RC] `C138_whole_cycles_partial`, `C138_half_cycles_partial`, `C138_any_time_partial`, `C138_determined_partial`, `C138_start_time_refuted`
* **C139** No energy from nothing — *partial*. Integral form of the energy balance of C51: stored energy plus meter readings has derivative zero (or of one sign), so the mean value theorem gives the account over the interval; bound of the array power from the monotone exponential. REFUTED for the models with constant DC voltage: their ideal DC source delivers energy also while the DER is disconnected. Proved for the single-phase, three-phase and balanced models with DC link, by exact energy account with meters (functions whose derivative is the power); requires a DC voltage that does not vanish on the interval and a non-negative filter resistance.
  * [RC] `C139_energy_account_partial`, `C139_no_energy_from_nothing_partial`, `C139_stored_energy_is_all_partial`, `C139_dark`, `C139_constant_vdc_refuted`
* **C140** Voltage change caused by a DER — *proved*. Thevenin form of the PCC voltage (affine in the current) proved by field reasoning over the complex numbers; the power relations follow by completing squares. Per phase and for the sum over the phases of the DER. Hypotheses: non-zero turns ratio, grid side and load do not generate active power, and their series impedance does not vanish; "more load" additionally needs an angle of at most 90 degrees between the two impedances.
  * [R-] `C140_imposed_voltage`
  * [R] `C140_voltage_change`, `C140_voltage_band`, `C140_voltage_and_power`, `C140_voltage_and_power_total`, `C140_no_rise_without_power`, `C140_absorbing_lowers_voltage`, `C140_power_taken_is_limited`, `C140_more_load`
* **C141** A DER has one operating point — *partial*. At rest every loop error is zero, so the phase-a current solves one complex quadratic equation w conj(i) + Z|i|^2 = const for both states; the difference of two solutions is estimated and must vanish below |w|/(2|Z|). REFUTED without a bound on the current: a DER in the dark can stand still without current or with the short-circuit current (C141_short_circuit_refuted). Proved for all five models when both states carry less than half the short-circuit current (open-circuit voltage, in three phases its positive sequence, divided by source impedance plus filter resistance) and modulation and current reference are within their limits.
  * [RC] `C141_one_operating_point_partial`, `C141_short_circuit_refuted`
* **C142** Which set points can be met — *proved*. Taking absolute values in the complex quadratic for the current gives a real quadratic in the squared current, whose discriminant is the criterion; the state at rest is then constructed explicitly and checked against every component of the equations. Both directions, for all five models. Existence needs non-zero filter inductance, DC voltage and open-circuit voltage (in three phases its positive sequence); passive network as in C129/C140.
  * [RC] `C142_infeasible_has_none`, `C142_feasible_has_one`

## What is not modelled
* The numerical solvers and the minimiser (their results are universally quantified, or the theorems speak of exact
  solutions); floating-point rounding, NaN, infinities; wall-clock measurements (show_simulation_time).
* matplotlib (PlotModel stops at which series is drawn under which label and unit), save_plot; the logging module itself
  (logutil.py, create_logger, set_logger): LogModel starts from the text of the log file.
* numba compilation and its cache helpers (utility_functions_numba.py 23-39): the compiled functions are read as Python.
* utilities_experimental.py (draw_model), templates_experimental.py, the MATLAB-file reader extract_matlab_file, terminal
  printing helpers (utility_functions.py 270-281, 316-330, 351-359), config_default.json (not valid JSON, not referenced).

## Further findings recorded while modelling (not stated as properties)
* A `phases` list read from JSON can never equal the expected tuple: ValueError for every file that sets it.
* A top-level `Srated` in a configuration entry overrides the `inverter_ratings` section.
* The instantaneous-trip switch of the frequency ride-through writes the low-frequency key for the high-frequency settings.
* `modify_DER_parameters` always raises AttributeError; `update_parameter_dict` silently ignores template components that are no parameter types.
* `check_circuit_parameters` logs the inverse of what it found.
* Plotting compares the class name with 'SolarPV_DER_ThreePhase', which no class has, so phases b and c are never plotted; the 'voltage' plot uses the high-voltage series with legends in another order.
* `ParamModel.load` maps FileNotFoundError to the ValueError constructor: only "raises" is used in statements.

## Robustness checks
`seeded/LOG.jsonl` records edits of the model that imitate realistic bugs, the theorems that stopped proving, and the
theorems added or tightened when none did.
