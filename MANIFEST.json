{
 "claims": [
  {
   "property": "C01",
   "status": "proved",
   "theorems": [
    "C01_schedules_sorted_unique_in_range",
    "C01_totals",
    "C01_totals_after_clear_refuted"
   ],
   "note": "Schedules: every history. Totals: every history without REMOVE_ALL; C01_totals_after_clear_refuted shows the stale totals after a clear."
  },
  {
   "property": "C02",
   "status": "proved",
   "theorems": [
    "C02_add_solar_replaces_exactly",
    "C02_add_grid_replaces_exactly",
    "C02_add_load_replaces_exactly"
   ],
   "note": ""
  },
  {
   "property": "C03",
   "status": "proved",
   "theorems": [
    "C03_add_solar_validation",
    "C03_add_grid_validation",
    "C03_add_load_validation"
   ],
   "note": "iff characterisation of rejection, and a rejected add leaves the whole object unchanged."
  },
  {
   "property": "C04",
   "status": "proved",
   "theorems": [
    "C04_solar_active_event",
    "C04_load_active_event",
    "C04_disabled_defaults"
   ],
   "note": ""
  },
  {
   "property": "C05",
   "status": "partial",
   "theorems": [
    "C05_active_event_refuted",
    "C05_backward_step_refuted",
    "C05_no_future_event_partial",
    "C05_repeated_query_settles_partial"
   ],
   "note": "REFUTED in full: a query that skips an event boundary, or steps back, returns a stale event. Proved instead: no future event is ever reported in a forward run and repeating a query settles on the right value."
  },
  {
   "property": "C06",
   "status": "proved",
   "theorems": [
    "C06_grid_voltage_frequency"
   ],
   "note": ""
  },
  {
   "property": "C07",
   "status": "partial",
   "theorems": [
    "C07_angle_follows_frequency",
    "C07_user_angle_refuted",
    "C07_step_dependence_refuted",
    "C07_pi_constant"
   ],
   "note": "Telescoping and idempotence proved for forward windowed runs; a user-supplied angle is ignored and a step larger than 3 ms past the last event skips its angle update (refuted variants)."
  },
  {
   "property": "C08",
   "status": "proved",
   "theorems": [
    "C08_queries_never_raise",
    "C08_queries_never_raise_after_reset",
    "C08_crash_after_removal_refuted",
    "C08_query_without_override_refuted"
   ],
   "note": "No-removal histories, angle override on. Crash after removal / with override off are proved as *_refuted findings."
  },
  {
   "property": "C09",
   "status": "partial",
   "theorems": [
    "C09_remove_grid",
    "C09_remove_load",
    "C09_remove_solar_refuted",
    "C09_remove_all_refuted"
   ],
   "note": "Grid and load removal exact. REFUTED for solar removal and for REMOVE_ALL; after a removal later queries may crash (C08_crash_after_removal_refuted)."
  },
  {
   "property": "C10",
   "status": "proved",
   "theorems": [
    "C10_random_insolation_accepted",
    "C10_random_voltage_accepted",
    "C10_random_events_loop"
   ],
   "note": ""
  },
  {
   "property": "C11",
   "status": "partial",
   "theorems": [
    "C11_insolation_ramp",
    "C11_single_point_target_refuted",
    "C11_wrong_start_refuted"
   ],
   "note": "Interpolation/target proved when the ramp has at least 2 points, relative to the value the query at tstart returns; single-point ramp and stale start value refuted."
  },
  {
   "property": "C12",
   "status": "partial",
   "theorems": [
    "C12_voltage_ramp_refuted",
    "C12_no_ramp_adds_events_partial"
   ],
   "note": "REFUTED: voltage_ramp raises TypeError for every non-empty ramp (C12_voltage_ramp_refuted). Left of it: a ramp without points is accepted, and no call changes the schedules beyond the query of the voltage at its start."
  },
  {
   "property": "C13",
   "status": "partial",
   "theorems": [
    "C13_spec_isolation_refuted",
    "C13_spec_isolation_partial"
   ],
   "note": "REFUTED: the spec dictionary is class-level. Isolation holds for instances created without events_spec and for rejected specs."
  },
  {
   "property": "C14",
   "status": "proved",
   "theorems": [
    "C14_lvrt_trip_iff_history",
    "C14_trip_flag_and_latch"
   ],
   "note": "iff over the whole history of processed samples, any settings, also with LFRT enabled."
  },
  {
   "property": "C15",
   "status": "proved",
   "theorems": [
    "C15_hvrt_trip_iff_history"
   ],
   "note": "mirrored"
  },
  {
   "property": "C16",
   "status": "proved",
   "theorems": [
    "C16_trip_is_permanent"
   ],
   "note": "LFRT disabled (default); with LFRT enabled see C63."
  },
  {
   "property": "C17",
   "status": "proved",
   "theorems": [
    "C17_old_times_ignored"
   ],
   "note": ""
  },
  {
   "property": "C18",
   "status": "proved",
   "theorems": [
    "C18_healthy_voltage",
    "C18_healthy_with_lfrt"
   ],
   "note": ""
  },
  {
   "property": "C19",
   "status": "proved",
   "theorems": [
    "C19_cessation_entry",
    "C19_cessation_exit",
    "C19_cessation_set"
   ],
   "note": "entry, exit and set conditions."
  },
  {
   "property": "C20",
   "status": "partial",
   "theorems": [
    "C20_persists_refuted",
    "C20_persists_lowest_zone_partial"
   ],
   "note": "REFUTED in general (zones share one flag: leaving an inner zone clears the flag of an outer one). Proved for the zone with the lowest threshold, e.g. the template settings."
  },
  {
   "property": "C21",
   "status": "partial",
   "theorems": [
    "C21_single_phase_overvoltage_refuted",
    "C21_all_phases_overvoltage_partial"
   ],
   "note": "REFUTED: with the default minimum measurement a single-phase overvoltage is never seen. Proved when all phases exceed the threshold."
  },
  {
   "property": "C22",
   "status": "proved",
   "theorems": [
    "C22_disconnect_only_after_delay",
    "C22_disconnect_happens",
    "C22_disconnect_only_after_delay_with_lfrt"
   ],
   "note": "necessary condition and converse."
  },
  {
   "property": "C23",
   "status": "partial",
   "theorems": [
    "C23_fresh_delay_refuted",
    "C23_first_disturbance_partial"
   ],
   "note": "REFUTED: the disconnect timer is never cleared when the flag clears. Proved for the first disturbance."
  },
  {
   "property": "C24",
   "status": "proved",
   "theorems": [
    "C24_reconnect_needs_delay",
    "C24_reconnect_happens",
    "C24_reconnect_needs_delay_with_lfrt"
   ],
   "note": "necessary condition and converse (strict delay)."
  },
  {
   "property": "C25",
   "status": "proved",
   "theorems": [
    "C25_references_zero_when_disconnected"
   ],
   "note": ""
  },
  {
   "property": "C26",
   "status": "partial",
   "theorems": [
    "C26_reference_zero_after_disconnect_partial",
    "C26_volt_var_resumes_refuted",
    "C26_untouched_while_connected_partial"
   ],
   "note": "REFUTED: Volt-VAR stays off for ever after the first disconnection. Proved: untouched while connected."
  },
  {
   "property": "C27",
   "status": "proved",
   "theorems": [
    "C27_accepted_iff_sane"
   ],
   "note": ""
  },
  {
   "property": "C28",
   "status": "partial",
   "theorems": [
    "C28_lfrt_trip_iff_history_partial",
    "C28_no_crash_refuted"
   ],
   "note": "Characterisation of LFRT_TRIP proved. REFUTED: every evaluation after the trip raises AssertionError while the DER is connected."
  },
  {
   "property": "C29",
   "status": "partial",
   "theorems": [
    "C29_isolation_refuted",
    "C29_instantaneous_trip_refuted",
    "C29_isolation_without_lfrt_partial"
   ],
   "note": "REFUTED: LFRT zones are shared dictionaries. Proved with LFRT disabled for any interleaving of DERs."
  },
  {
   "property": "C30",
   "status": "proved",
   "theorems": [
    "C30_volt_var_output",
    "C30_curve_edges",
    "C30_non_increasing",
    "C30_active_indicator"
   ],
   "note": "complete input/output description at a new time, edges, monotonicity."
  },
  {
   "property": "C31",
   "status": "partial",
   "theorems": [
    "C31_capability_refuted",
    "C31_fresh_output_partial",
    "C31_history_bound_partial"
   ],
   "note": "REFUTED: inside the hysteresis bands (and for repeated times) the old reference is returned although the capability has shrunk. Proved: fresh outputs respect the capability; over any history |Q| <= 0.44*S."
  },
  {
   "property": "C32",
   "status": "proved",
   "theorems": [
    "C32_reactive_capability"
   ],
   "note": ""
  },
  {
   "property": "C33",
   "status": "proved",
   "theorems": [
    "C33_step",
    "C33_constant_Vdc",
    "C33_rate_over_history",
    "C33_reaches_constant_command"
   ],
   "note": "three-phase DER types, exact rational arithmetic."
  },
  {
   "property": "C34",
   "status": "partial",
   "theorems": [
    "C34_three_phase_refuted",
    "C34_single_phase_refuted",
    "C34_any_time_partial",
    "C34_single_phase_partial"
   ],
   "note": "REFUTED for backward steps (full jump to the command) and for single-phase DERs (t_iref never updated). Proved: what holds for arbitrary times and single-phase."
  },
  {
   "property": "C35",
   "status": "proved",
   "theorems": [
    "C35_add_validation",
    "C35_add_replaces_exactly",
    "C35_schedule_sane",
    "C35_follows_schedule"
   ],
   "note": ""
  },
  {
   "property": "C36",
   "status": "partial",
   "theorems": [
    "C36_ramp_reaches_target_partial",
    "C36_ramp_after_downward_ramp_refuted",
    "C36_documented_rate_refuted",
    "C36_ramp_from_held_voltage_refuted"
   ],
   "note": "REFUTED as stated: after a downward ramp every ramp raises IndexError, the slope is 4 V/s instead of the documented 1 V/s, and a ramp from a held Vdc outside the MPP window raises ValueError (C36_*_refuted). C36_ramp_reaches_target_partial: a ramp in either direction from a valid state does reach its target in monotone steps."
  },
  {
   "property": "C37",
   "status": "partial",
   "theorems": [
    "C37_isolation_refuted",
    "C37_isolation_partial"
   ],
   "note": "REFUTED as stated: the schedule list is a class attribute shared by all DER objects (C37_*_refuted); the partial theorem covers a single DER per process."
  },
  {
   "property": "C38",
   "status": "partial",
   "theorems": [
    "C38_parameter_precedence_partial",
    "C38_created_der_partial"
   ],
   "note": "Precedence keyword > DER entry > template proved for every file, entry and argument list. REFUTED parts: the parent entry plays no role end to end (see C40), a wrongly typed Srated keyword is silently ignored, template values are not type-checked."
  },
  {
   "property": "C39",
   "status": "partial",
   "theorems": [
    "C39_argument_resolution_partial",
    "C39_exact_resolution_partial",
    "C39_wrong_type_refuted"
   ],
   "note": "REFUTED for wrongly typed keyword arguments (C39_wrong_type_refuted): they are dropped silently when the config has no entry. Proved exactly for well typed arguments and configs, and the general resolution rule."
  },
  {
   "property": "C40",
   "status": "partial",
   "theorems": [
    "C40_specification_inheritance_partial",
    "C40_parent_config_refuted"
   ],
   "note": "REFUTED: any non-empty parent_config raises AttributeError, because the error path reads self.name before it exists. Proved: the inheritance rule of the specification step itself."
  },
  {
   "property": "C41",
   "status": "partial",
   "theorems": [
    "C41_advertised_types_refuted",
    "C41_buildable_types_partial",
    "C41_unknown_type_partial"
   ],
   "note": "REFUTED for 4 of the 7 advertised types: NameError (three-phase NoVrmsFilter and ConstantVdc) or, for the single-phase types, KeyError, for every configuration. Proved: unknown types raise ValueError; the other three get through configuration whenever their settings are accepted."
  },
  {
   "property": "C42",
   "status": "partial",
   "theorems": [
    "C42_initial_state_argument_refuted",
    "C42_states_from_configuration_partial",
    "C42_dictionary_keys_partial"
   ],
   "note": "REFUTED: an initial state argument never changes the initial states, for every value and configuration. Proved: which states come from the configuration file."
  },
  {
   "property": "C43",
   "status": "partial",
   "theorems": [
    "C43_update_partial",
    "C43_unknown_type_partial",
    "C43_unknown_keys_refuted",
    "C43_save_load_partial",
    "C43_types_mixed_refuted",
    "C43_dotted_id_refuted",
    "C43_default_id_refuted",
    "C43_steadystate_refuted",
    "C43_self_copy_refuted",
    "C43_types_by_name_partial"
   ],
   "note": "REFUTED: any unknown key is accepted; loading mixes the five types; an ID with a dot loads under its prefix; a DER whose own ID is not the default ID of its type can never create or load another dictionary (all histories); get rejects steadystate_values; copying the default onto itself erases it. Proved: exact frame of update, and the save/load round trip when the default ID is present."
  },
  {
   "property": "C44",
   "status": "proved",
   "theorems": [
    "C44_balanced_set"
   ],
   "note": "exact complex arithmetic over R"
  },
  {
   "property": "C45",
   "status": "proved",
   "theorems": [
    "C45_dq0_then_abc",
    "C45_abc_then_dq0"
   ],
   "note": ""
  },
  {
   "property": "C46",
   "status": "partial",
   "theorems": [
    "C46_components_reconstruct",
    "C46_balanced_is_positive_sequence",
    "C46_sequence_sets_refuted",
    "C46_sequence_sets_partial"
   ],
   "note": "REFUTED: phasor_to_negative_sequence rotates phases b and c the wrong way, so zero/positive/negative sequence phasor functions do not reconstruct; C46_partial: phasor_to_symmetrical itself is correct and invertible"
  },
  {
   "property": "C47",
   "status": "proved",
   "theorems": [
    "C47_pll_error",
    "C47_lock_point"
   ],
   "note": ""
  },
  {
   "property": "C48",
   "status": "proved",
   "theorems": [
    "C48_rms_measurements",
    "C48_rms_of_waveform"
   ],
   "note": ""
  },
  {
   "property": "C49",
   "status": "proved",
   "theorems": [
    "C49_power_total",
    "C49_power_zero_and_sign",
    "C49_power_monotone_in_insolation"
   ],
   "note": "exact real arithmetic; the OverflowError branch of math.exp is modelled as an arbitrary threshold"
  },
  {
   "property": "C50",
   "status": "proved",
   "theorems": [
    "C50_pcc_voltage_solves_the_circuit",
    "C50_idle_phase_voltage"
   ],
   "note": ""
  },
  {
   "property": "C51",
   "status": "proved",
   "theorems": [
    "C51_energy_balance_single_phase",
    "C51_energy_balance_three_phase",
    "C51_filter_steady_state",
    "C51_pcc_power_balance",
    "C51_filter_energy",
    "C51_total_energy"
   ],
   "note": "energy balance along any trajectory of the single- and three-phase ODE, and filter steady state"
  },
  {
   "property": "C52",
   "status": "partial",
   "theorems": [
    "C52_constant_Vdc_partial",
    "C52_constant_Vdc_refuted",
    "C52_state_lists_complete",
    "C52_balanced_partial",
    "C52_balanced_refuted",
    "C52_three_phase_partial",
    "C52_three_phase_refuted",
    "C52_single_phase_partial",
    "C52_single_phase_refuted",
    "C52_stand_alone_refuted",
    "C52_disconnected_refuted",
    "C52_const3_partial",
    "C52_const3_refuted"
   ],
   "note": "REFUTED as stated: in the code the single-phase and single-phase-constant-Vdc J[iaI,wte] has the wrong sign, the three-phase Vrms row is never filled, the balanced matrix uses one phase's share (1/3) of the dc-link and reactive-power couplings, the constant-Vdc active-power rows/columns are wrong, the three-phase constant-Vdc matrix also lacks the phase b and c couplings of xQ and uaI and uses single-phase PLL entries, and in stand-alone mode or after disconnection the matrix is not the derivative. Proved: every other entry of the five matrices is the exact partial derivative (up to the 1e-9 error of the decimal literals for sqrt(3)/2, bounded explicitly) away from switching surfaces, with externally supplied voltage and the DER connected."
  },
  {
   "property": "C53",
   "status": "partial",
   "theorems": [
    "C53_inner_integrators_bounded_partial",
    "C53_modulation_bounded_partial",
    "C53_outer_integrators_bounded_partial",
    "C53_integrators_not_driven_further_partial",
    "C53_unsaturated_is_PI_partial",
    "C53_modulation_limited_refuted"
   ],
   "note": "REFUTED part: the applied modulation is not limited and can keep growing while saturated (C53_modulation_limited_refuted). Proved: an integrator component is frozen exactly when it would be driven further in its own direction; unsaturated it is a PI controller; and along every run of all five systems the integrators stay within the limit plus the largest proportional part, so the duty cycle of each axis exceeds its limit by at most twice the proportional part of the largest tracking error."
  },
  {
   "property": "C54",
   "status": "proved",
   "theorems": [
    "C54_state_vector_layout",
    "C54_wrong_length_rejected",
    "C54_solution_columns_stored",
    "C54_jacobian_index"
   ],
   "note": "Layout of y0, ODE_model unpacking, derivative vector and collect_states agree for all 7 model types and all state values; wrong lengths rejected (numba ignores surplus). The Jacobian index table calls the last three-phase state Vrms (C54_jacobian_index)."
  },
  {
   "property": "C55",
   "status": "partial",
   "theorems": [
    "C55_loop_restart_partial",
    "C55_next_interval_partial",
    "C55_three_phase_restart",
    "C55_loop_restart_refuted"
   ],
   "note": "REFUTED for SolarPVDERThreePhase (C55_loop_restart_refuted): collect_states stores Vrms_filter_t while y0 reads Vrms_filter, so that component restarts from its value at construction for ever (C55_three_phase_restart, all histories). Proved for the six other model types and all histories."
  },
  {
   "property": "C56",
   "status": "proved",
   "theorems": [
    "C56_trajectories_consistent",
    "C56_no_duplicate_times",
    "C56_batch_trajectories"
   ],
   "note": "All histories of intervals and reads after a first interval; odeint is assumed to return one full row per requested time. Float arrays are exact lists."
  },
  {
   "property": "C57",
   "status": "proved",
   "theorems": [
    "C57_time_grid",
    "C57_stepping_solver_times"
   ],
   "note": "Exact rational arithmetic: float rounding in np.arange is not modelled."
  },
  {
   "property": "C58",
   "status": "proved",
   "theorems": [
    "C58_phase_set",
    "C58_balanced",
    "C58_follows_events",
    "C58_recorded_grid",
    "C58_recording_is_harmless",
    "C58_no_going_back"
   ],
   "note": "All call orders and event results; grid_events results are universally quantified."
  },
  {
   "property": "C59",
   "status": "partial",
   "theorems": [
    "C59_grid_power_partial",
    "C59_other_powers",
    "C59_grid_power_refuted"
   ],
   "note": "REFUTED for three-phase models: dynamic_simulation.py:610 applies the factor 1/2 to phase a only, so phases b and c count twice. Proved: exact relation between the stored series and the true sum, equality for single-phase models, for S_t, S_PCC_t and S_load1_t, and for the instantaneous S_G."
  },
  {
   "property": "C60",
   "status": "proved",
   "theorems": [
    "C60_base_values_consistent"
   ],
   "note": ""
  },
  {
   "property": "C61",
   "status": "proved",
   "theorems": [
    "C61_failures_reported"
   ],
   "note": "odeint status list assumed one entry per step (the code asserts it)."
  },
  {
   "property": "C62",
   "status": "proved",
   "theorems": [
    "C62_initial_reference",
    "C62_mpp_reference_clamped"
   ],
   "note": ""
  },
  {
   "property": "C63",
   "status": "partial",
   "theorems": [
    "C63_trip_permanent_with_lfrt_partial",
    "C63_trip_permanent_with_lfrt_refuted"
   ],
   "note": "REFUTED: the frequency logic reconnects a voltage-tripped DER. Proved: it stays disconnected for as long as no frequency trip has occurred (C63_trip_permanent_with_lfrt_partial). The LFRT-disabled case is C16."
  },
  {
   "property": "C64",
   "status": "proved",
   "theorems": [
    "C64_ridethrough_never_raises"
   ],
   "note": ""
  },
  {
   "property": "C65",
   "status": "partial",
   "theorems": [
    "C65_restore_vdc_partial",
    "C65_restore_vdc_refuted"
   ],
   "note": "REFUTED: reconnecting raises ValueError when the held DC voltage is outside the MPP window. Proved: when reference and set point are inside the window and no downward ramp was made, no evaluation fails and the reconnection schedules a stepwise ramp that ends at the set point (C65_restore_vdc_partial). The restore_Vdc-disabled case is C64."
  },
  {
   "property": "C66",
   "status": "partial",
   "theorems": [
    "C66_direction_refuted",
    "C66_direction_partial"
   ],
   "note": "REFUTED: the value held in a hysteresis band can have the wrong sign. Proved outside the hysteresis bands."
  },
  {
   "property": "C67",
   "status": "proved",
   "theorems": [
    "C67_relative_phase"
   ],
   "note": ""
  },
  {
   "property": "C68",
   "status": "proved",
   "theorems": [
    "C68_limit_complex",
    "C68_time_series"
   ],
   "note": ""
  },
  {
   "property": "C69",
   "status": "proved",
   "theorems": [
    "C69_mpp_root_maximises_power",
    "C69_mpp_unique_inside_open_circuit",
    "C69_mpp_root_exists"
   ],
   "note": ""
  },
  {
   "property": "C70",
   "status": "partial",
   "theorems": [
    "C70_configured_insolation_refuted",
    "C70_configured_insolation_partial"
   ],
   "note": "REFUTED with MPPT enabled: fit_MPP_poly leaves Sinsol=100 and Tactual=298.15. Proved for MPPT disabled (default)."
  },
  {
   "property": "C71",
   "status": "partial",
   "theorems": [
    "C71_balanced_model_consistent_partial",
    "C71_balanced_model_consistent_refuted"
   ],
   "note": "REFUTED for saturated states: the sign based anti-windup is not invariant under 120 degree rotation. Proved: phase-a agreement always, balance preserved whenever the modulation is inside its limit."
  },
  {
   "property": "C72",
   "status": "partial",
   "theorems": [
    "C72_per_unit_dynamics_refuted",
    "C72_per_unit_dynamics_partial"
   ],
   "note": "REFUTED: the returned derivatives are the physical ones divided by wbase (missing factor 377). Proved: exactly that relation, so equilibria are the physical ones."
  },
  {
   "property": "C73",
   "status": "partial",
   "theorems": [
    "C73_rerun_refuted",
    "C73_rerun_partial"
   ],
   "note": "REFUTED: the last-change time of the grid source is not reset between runs, so in a second run the grid keeps the final voltage until that time is reached again. Proved: every run whose times are non-decreasing and not before earlier calls follows the schedule."
  },
  {
   "property": "C74",
   "status": "partial",
   "theorems": [
    "C74_solver_selection_refuted",
    "C74_stale_convergence_refuted",
    "C74_odeint_flag_partial"
   ],
   "note": "REFUTED: creating a simulation with ode-vode-bdf always raises AttributeError, unknown solver names give AttributeError; the alternative solver never sets the convergence flag. Proved: with odeint the flag/exception is exact."
  },
  {
   "property": "C75",
   "status": "partial",
   "theorems": [
    "C75_reading_harmless_partial",
    "C75_reading_harmless_refuted"
   ],
   "note": "REFUTED before the first interval: reading raises TypeError and makes y0 unreadable for every model with a DC-link state. Proved after at least one interval of two or more points."
  },
  {
   "property": "C76",
   "status": "proved",
   "theorems": [
    "C76_batch_starts_from_der_state"
   ],
   "note": "Consequence: a second batch run continues from the state left in the DER instead of repeating the first."
  },
  {
   "property": "C77",
   "status": "partial",
   "theorems": [
    "C77_initial_state_vector_refuted",
    "C77_other_types_partial"
   ],
   "note": "REFUTED: with steadyStateInitialization off a SolarPVDERThreePhase has no Vrms_filter and reading y0 raises AttributeError, for every configuration. Proved for the other two buildable types. The steady-state branch (numerical minimiser) is not modelled here."
  },
  {
   "property": "C78",
   "status": "partial",
   "theorems": [
    "C78_arguments_without_effect_refuted",
    "C78_effective_arguments_partial",
    "C78_switches_partial"
   ],
   "note": "REFUTED: powerRating, VrmsRating, derConfig, derId, ia0, xa0, ua0, xDC0, xP0, xQ0, xPLL0 and wte0 have no effect for any configuration. Proved: each of the other arguments has an effect in some configuration (C78_effective_arguments_partial; identifier and allowUnbalancedM are covered by C104 and C85)."
  },
  {
   "property": "C79",
   "status": "proved",
   "theorems": [
    "C79_ridethrough_settings",
    "C79_dangling_reference_rejected",
    "C79_missing_settings_rejected"
   ],
   "note": "Every configuration file, DER entry and argument list."
  },
  {
   "property": "C80",
   "status": "partial",
   "theorems": [
    "C80_integer_verbosity_refuted",
    "C80_named_levels_partial"
   ],
   "note": "REFUTED: with any integer verbosity construction fails for every configuration. Proved: exactly the five names are accepted."
  },
  {
   "property": "C81",
   "status": "partial",
   "theorems": [
    "C81_infeasible_ratings_rejected",
    "C81_rated_voltage_reachable",
    "C81_negative_rating_refuted"
   ],
   "note": "Proved for every positive rated voltage (C81_infeasible_ratings_rejected, C81_rated_voltage_reachable). REFUTED for a negative VrmsRating, which passes every check (C81_negative_rating_refuted)."
  },
  {
   "property": "C82",
   "status": "partial",
   "theorems": [
    "C82_per_unit_values",
    "C82_rated_current",
    "C82_load_inductance_refuted"
   ],
   "note": "Per-unit conversion and rated current proved. REFUTED for the load inductance, which is computed from the line impedance instead of the load impedance."
  },
  {
   "property": "C83",
   "status": "partial",
   "theorems": [
    "C83_voltage_units_refuted",
    "C83_converted_voltage_partial"
   ],
   "note": "REFUTED: creation divides the voltage by Vbase (500), update does not, so the same value is over 400 times the rated voltage later. Proved when the caller converts the later values itself."
  },
  {
   "property": "C84",
   "status": "proved",
   "theorems": [
    "C84_single_phase_residuals",
    "C84_three_phase_residuals",
    "C84_balanced_modulation_term"
   ],
   "note": "Single and three phase, balanced and free duty cycles."
  },
  {
   "property": "C85",
   "status": "partial",
   "theorems": [
    "C85_three_phase_near_equilibrium",
    "C85_three_phase_equilibrium",
    "C85_pll_error_at_start",
    "C85_unbalanced_option_refuted",
    "C85_single_phase_near_equilibrium",
    "C85_single_phase_pll_error"
   ],
   "note": "Derivative bounds at the start proved for single phase and balanced three phase. REFUTED for allowUnbalancedM with unbalanced currents; the PLL error at the start is the imaginary part of the PCC voltage, so a stand-alone start is not at rest in general."
  },
  {
   "property": "C86",
   "status": "partial",
   "theorems": [
    "C86_no_convergence_is_an_error",
    "C86_initial_integrators",
    "C86_integrators_refuted",
    "C86_integrators_partial"
   ],
   "note": "REFUTED: the integrators are taken from the last point the minimiser evaluated (C86_integrators_refuted); the distance from rest is bounded by that offset (C86_integrators_partial). Non-convergence always raises ValueError."
  },
  {
   "property": "C87",
   "status": "partial",
   "theorems": [
    "C87_terminal_power_partial",
    "C87_other_three_phase_refuted",
    "C87_filter_power"
   ],
   "note": "Proved for single phase and SolarPVDERThreePhase, and for filter power in every type. REFUTED for the other three-phase types: the RMS figure covers one phase only."
  },
  {
   "property": "C88",
   "status": "proved",
   "theorems": [
    "C88_frequency_locks",
    "C88_excursion_bounded",
    "C88_phase_locks",
    "C88_phase_locks_at_grid_frequency",
    "C88_locked_stays_locked",
    "C88_opposition_never_locks"
   ],
   "note": "All five systems of equations (three-phase ones with balanced voltage). The energy barrier is needed: in exact opposition the loop never locks (C88_opposition_never_locks)."
  },
  {
   "property": "C89",
   "status": "proved",
   "theorems": [
    "C89_unbalance_measure"
   ],
   "note": "For magnitudes; the function does not accept complex phasors."
  },
  {
   "property": "C90",
   "status": "partial",
   "theorems": [
    "C90_estimate_closed_form_partial",
    "C90_steady_grid_partial",
    "C90_estimate_refuted"
   ],
   "note": "REFUTED: the estimate is 2*pi*60 + 1000*(angle - initial angle), so a phase step leaves a permanent error. Closed form and the constant-angle case proved."
  },
  {
   "property": "C91",
   "status": "partial",
   "theorems": [
    "C91_series_partial",
    "C91_phase_rms",
    "C91_series_refuted"
   ],
   "note": "Proved for all series but the two refuted ones: Ppv_t of a disconnected DER is not zero, and phase b/c voltages of the balanced model on an unbalanced stand-alone grid are not those used by the model."
  },
  {
   "property": "C92",
   "status": "partial",
   "theorems": [
    "C92_hv_voltage_partial",
    "C92_idle_phases_refuted"
   ],
   "note": "Proved in the phases with an inverter. REFUTED in the idle phases of a single-phase DER, where the source voltage is stored."
  },
  {
   "property": "C93",
   "status": "partial",
   "theorems": [
    "C93_power_transfer_partial",
    "C93_power_transfer_refuted"
   ],
   "note": "REFUTED: a formula for a purely inductive line is used for every impedance, and it gives one phase of three. Proved for balanced lossless lines as power per phase."
  },
  {
   "property": "C94",
   "status": "proved",
   "theorems": [
    "C94_filter_stays_in_range",
    "C94_step_response",
    "C94_detection_delay",
    "C94_converges"
   ],
   "note": "Exact-real solutions of the filter equation; the ODE solver error is outside the model."
  },
  {
   "property": "C95",
   "status": "proved",
   "theorems": [
    "C95_isolated_from_set_points",
    "C95_references_zero",
    "C95_no_infeed",
    "C95_equilibria_deliver_nothing",
    "C95_output_vanishes",
    "C95_isolated_all_models",
    "C95_equilibria_all_models"
   ],
   "note": "All five systems of equations. C95_output_vanishes: along every solution the current and the power at the connection point tend to zero."
  },
  {
   "property": "C96",
   "status": "proved",
   "theorems": [
    "C96_single_phase",
    "C96_three_phase",
    "C96_balanced",
    "C96_constant_Vdc",
    "C96_delivered_power",
    "C96_three_phase_constant_Vdc",
    "C96_losses_all_models"
   ],
   "note": "Unsaturated states; all five systems of equations."
  },
  {
   "property": "C97",
   "status": "partial",
   "theorems": [
    "C97_utilities",
    "C97_limit_check_refuted",
    "C97_compiled_model_agrees",
    "C97_unfiltered_model_agrees",
    "C97_same_on_every_vector",
    "C97_initial_vector_round_trip"
   ],
   "note": "Derivatives proved equal on every vector. REFUTED for limit_complex with limits in the wrong order: the compiled version returns a phasor where the Python one raises AssertionError (C97_limit_check_refuted). The Jacobians are textually those of the standard class and are not modelled again; that numba.njit computes what the Python text says is trusted."
  },
  {
   "property": "C98",
   "status": "partial",
   "theorems": [
    "C98_selected_voltage_decides_partial",
    "C98_filtered_is_frozen_refuted",
    "C98_filtered_missing_refuted",
    "C98_reading_agrees"
   ],
   "note": "REFUTED: the filtered option on the six model classes without a filter state stays at the initial voltage for ever, so a fault is never seen; without steady-state initialisation it raises AttributeError. Proved for the other options and for the classes with a filter state."
  },
  {
   "property": "C99",
   "status": "partial",
   "theorems": [
    "C99_scheduled_angle_kept_partial",
    "C99_frequency_follows_angle_partial",
    "C99_queries_keep_angles",
    "C99_larger_step_refuted"
   ],
   "note": "Proved for schedules whose steps give a frequency in range. REFUTED for the rest: a step beyond about +0.0126 or -0.0252 rad is accepted when scheduled and then makes every query in its window raise ValueError (C99_larger_step_refuted). When the solver skips the 3 ms window the scheduled frequency is returned instead of the step frequency."
  },
  {
   "property": "C100",
   "status": "proved",
   "theorems": [
    "C100_events_spec_applied",
    "C100_new_object_defaults",
    "C100_documented_defaults"
   ],
   "note": "Numeric specification values."
  },
  {
   "property": "C101",
   "status": "proved",
   "theorems": [
    "C101_equilibria_meet_set_points",
    "C101_delivered_power",
    "C101_disconnected_is_inert",
    "C101_is_three_single_phase"
   ],
   "note": "Equilibrium statements are for unsaturated states; saturated behaviour is C53."
  },
  {
   "property": "C102",
   "status": "proved",
   "theorems": [
    "C102_grid_model_required",
    "C102_measurements_required",
    "C102_model_type",
    "C102_parameter_missing",
    "C102_parameter_dictionary",
    "C102_missing_file",
    "C102_measurement_type",
    "C102_ride_through_table",
    "C102_loop_arguments"
   ],
   "note": "The order of the checks relative to the rest of the constructor is C38-C41."
  },
  {
   "property": "C103",
   "status": "partial",
   "theorems": [
    "C103_plots_batch_partial",
    "C103_plots_loop_partial",
    "C103_units",
    "C103_unknown_or_unavailable",
    "C103_all_types_refuted",
    "C103_loop_mode_refuted",
    "C103_compare_external"
   ],
   "note": "REFUTED as stated (C103_all_types_refuted, C103_loop_mode_refuted): the \"voltage\" plot always fails with AttributeError (vdg_t is never assigned), three advertised types fail with UnboundLocalError, power and active_power fail for grid-connected DERs, and stand-alone plots fail in loop mode after two or more intervals. Proved: every other advertised type draws one honest curve per label (the all-phases voltage and duty-cycle plots show phase a only), the unit scaling, the refusals and the external comparison."
  },
  {
   "property": "C104",
   "status": "proved",
   "theorems": [
    "C104_names",
    "C104_unique"
   ],
   "note": ""
  },
  {
   "property": "C105",
   "status": "proved",
   "theorems": [
    "C105_disabled_side_is_inert",
    "C105_all_disabled",
    "C105_low_voltage_ignored",
    "C105_high_voltage_ignored",
    "C105_disabling_does_not_release"
   ],
   "note": ""
  },
  {
   "property": "C106",
   "status": "partial",
   "theorems": [
    "C106_overfrequency_refuted"
   ],
   "note": "REFUTED: the HFRT settings and HFRT_ENABLE are never read by an evaluation. C106_overfrequency_refuted: any two histories that differ only in frequencies above the low-frequency thresholds lead to identical states, so an overfrequency of any size and duration is treated as nominal frequency."
  },
  {
   "property": "C107",
   "status": "proved",
   "theorems": [
    "C107_listing",
    "C107_no_duplicates"
   ],
   "note": ""
  },
  {
   "property": "C108",
   "status": "partial",
   "theorems": [
    "C108_switch_refuted",
    "C108_wrapper_refuted"
   ],
   "note": "REFUTED: C108_switch_refuted \u2014 modify_DER_parameters looks up self.get_DER_id, which no DER class defines (only the wrapper), so every call on a DER raises AttributeError; C108_wrapper_refuted \u2014 on the wrapper the next step fails likewise. There is no positive part."
  },
  {
   "property": "C109",
   "status": "partial",
   "theorems": [
    "C109_displayed_parameters_partial",
    "C109_constant_Vdc_refuted",
    "C109_Tfilter_never_shown_refuted",
    "C109_unknown_type"
   ],
   "note": "Proved end to end from setup_DER for the types with a DC link state (C109_displayed_parameters_partial) and the rejection of unknown types. REFUTED for the constant-Vdc types (C109_constant_Vdc_refuted: circuit_parameters raises AttributeError) and for the filter time constant of the RMS voltage measurement (C109_Tfilter_never_shown_refuted)."
  },
  {
   "property": "C110",
   "status": "partial",
   "theorems": [
    "C110_load_follows_schedule_partial",
    "C110_external_grid",
    "C110_compiled_type_refuted"
   ],
   "note": "Proved for all interpreted types and every schedule (C110_load_follows_schedule_partial, C110_external_grid). REFUTED for the compiled type SolarPVDERThreePhaseNumba (C110_compiled_type_refuted: AttributeError at the first load change)."
  },
  {
   "property": "C111",
   "status": "partial",
   "theorems": [
    "C111_displayed_states_partial",
    "C111_three_phase_voltages_refuted",
    "C111_readable_quantities",
    "C111_unknown_quantity"
   ],
   "note": "Proved: which lines are shown and that each is the named quantity in physical units, for all types (C111_displayed_states_partial), rejection of unknown quantities. REFUTED for three-phase voltages (C111_three_phase_voltages_refuted: the second terminal voltage is labelled Vtb instead of Vtc and Vn shows the sum of the terminal voltages) and for the unit of Irms."
  },
  {
   "property": "C112",
   "status": "partial",
   "theorems": [
    "C112_debug_output_harmless_partial",
    "C112_debug_output_refuted"
   ],
   "note": "Proved for the power, current and PLL flags in stand-alone simulations and PLL otherwise (C112_debug_output_harmless_partial). REFUTED for the voltage and controller flags, and for current and power flags with an external grid: AttributeError at the first evaluation, for every type (C112_debug_output_refuted)."
  },
  {
   "property": "C113",
   "status": "partial",
   "theorems": [
    "C113_single_phase_refuted",
    "C113_line_to_line",
    "C113_optional_results"
   ],
   "note": "Proved for all three-phase types (C113_line_to_line, C113_optional_results). REFUTED for the single-phase types: Vabrms_calc always raises AttributeError (C113_single_phase_refuted)."
  },
  {
   "property": "C114",
   "status": "partial",
   "theorems": [
    "C114_lfrt_transparent",
    "C114_quiet_iff_history",
    "C114_after_trip_refuted"
   ],
   "note": "Proved: the whole run with LFRT equals the run without it up to the frequency timers while LFRT has not tripped, and not tripped is exactly the history condition; C18, C22, C24 carry over (C18_healthy_with_lfrt, ...). REFUTED after an LFRT trip: the next evaluation raises AssertionError instead of disconnecting (C114_after_trip_refuted)."
  },
  {
   "property": "C115",
   "status": "partial",
   "theorems": [
    "C115_frequency_settings_partial",
    "C115_instantaneous_refuted",
    "C115_further_levels_refuted"
   ],
   "note": "Proved: acceptance is exactly the ordering of the first two levels and limits stay as configured with the option off. REFUTED: the option leaves the high-frequency limits unchanged, sets 30 cycles (0.5 s) instead of one cycle (longer than the default level-1 limit), and further levels and all limits are unchecked (C115_instantaneous_refuted, C115_further_levels_refuted)."
  },
  {
   "property": "C116",
   "status": "partial",
   "theorems": [
    "C116_displayed_settings_partial",
    "C116_display_refuted"
   ],
   "note": "Proved: for LVRT, HVRT and the first two LFRT levels each level is shown with its own settings. REFUTED: PER_UNIT has no effect, HFRT is rejected with ValueError, further LFRT levels are not shown (C116_display_refuted)."
  },
  {
   "property": "C117",
   "status": "proved",
   "theorems": [
    "C117_jacobian_self_check"
   ],
   "note": "Central differences over exact reals with step 1e-6; the finite-difference error bound M/6e12 appears in the statement; float rounding not modelled."
  },
  {
   "property": "C118",
   "status": "partial",
   "theorems": [
    "C118_only_integrators_partial",
    "C118_integrator_law_partial",
    "C118_overload_refuted"
   ],
   "note": "Proved: the rating only stops the outer-loop integrators, exactly when the request exceeds it and the integrator moves away from zero; references and all other dynamics do not depend on it. REFUTED: the reference is not bounded and an operating point at twice the limit persists (C118_overload_refuted)."
  },
  {
   "property": "C119",
   "status": "partial",
   "theorems": [
    "C119_shipped_partial",
    "C119_shipped_refuted",
    "C119_entries"
   ],
   "note": "Proved for the entries 50, 250 and 50_balanced, for the configuration phase of construction (setup_DER and initialize_DER up to the grid measurements; what follows is numerical, see C81, C82 and C84). REFUTED for the seven others (50_numba, 50_type1, 250_numba, 10, 1, 10_constantVdc, 50_constantVdc): no arguments build them (C119_shipped_refuted). C119_entries: these ten are all the DER entries of the file."
  },
  {
   "property": "C120",
   "status": "partial",
   "theorems": [
    "C120_unknown_id_refuted",
    "C120_stripped_text"
   ],
   "note": "Proved for all sequences of records without \"::\", trailing \":\" or line ends in a column (read back exactly, filter exact). REFUTED otherwise: a message with \"::\" is cut and its rest reported as the thread name, one multi-line message or one non-json error record makes the whole log unreadable, and the wrapper itself writes such a record for an unknown configuration id (C120_unknown_id_refuted). dateutil and json parsers are universally quantified parameters."
  },
  {
   "property": "C121",
   "status": "partial",
   "theorems": [
    "C121_reported",
    "C121_falling_partial",
    "C121_rising_refuted"
   ],
   "note": "Proved: what is printed for every series (C121_reported), and for falling exponentials the reported value lies in (T, T+h] with 0<T<tau, and above 0.9 tau if the record lasts 5 tau. REFUTED for rising responses: the time of the first sample is reported whatever the response (C121_rising_refuted)."
  },
  {
   "property": "C122",
   "status": "partial",
   "theorems": [
    "C122_old_trials_partial",
    "C122_trials_refuted",
    "C122_shadowed_refuted"
   ],
   "note": "Proved: discarded evaluations at times already seen have no influence, for every schedule. REFUTED for trials ahead: a discarded trial can suppress a due trip, and discarded trials alone can trip a DER whose accepted voltage is always healthy, with steps within the solver limit of 1/120 s; accepted points not later than an earlier trial are never seen (C122_shadowed_refuted)."
  },
  {
   "property": "C123",
   "status": "proved",
   "theorems": [
    "C123_filter_current",
    "C123_free_decay"
   ],
   "note": "All five systems of equations (single, three-phase, balanced, both constant-Vdc), every input trajectory; frequency-independent."
  },
  {
   "property": "C124",
   "status": "proved",
   "theorems": [
    "C124_error_signal"
   ],
   "note": "All five systems, both axes, saturated or not."
  },
  {
   "property": "C125",
   "status": "partial",
   "theorems": [
    "C125_energy_partial",
    "C125_ceiling_partial",
    "C125_ceiling_refuted"
   ],
   "note": "Proved for every run: two-sided energy balance, and the ceiling when the clamp Vdcmpp_max is not below the open-circuit voltage. REFUTED otherwise: above the clamp the PV power no longer depends on the DC voltage, so with the shipped 10 kVA array (clamp 800 V, still delivering current there) a connected inverter that converts nothing reaches every DC voltage."
  },
  {
   "property": "C126",
   "status": "partial",
   "theorems": [
    "C126_session_partial",
    "C126_recorded_voltages_partial",
    "C126_refused_partial",
    "C126_missing_phase_refuted",
    "C126_standalone_refuted"
   ],
   "note": "Proved for whole sessions of steps and reads: the returned trajectories are exactly the concatenation of the intervals, the recorded voltages are the supplied ones, and a call without phase A voltage, y0 or t is refused without any change. REFUTED: a three-phase call without phase B or C is not refused but fails with TypeError after the DER voltages were overwritten; for a stand-alone DER the voltages are demanded and ignored."
  },
  {
   "property": "C127",
   "status": "partial",
   "theorems": [
    "C127_same_objects_partial",
    "C127_two_grids_refuted",
    "C127_two_schedules_refuted"
   ],
   "note": "Proved when the DER, the simulation and the Grid share the same Grid and events objects. REFUTED otherwise although nothing is refused: with a second Grid the DER never sees any event, with a second events object the recorded grid differs from the simulated one wherever the schedules differ."
  },
  {
   "property": "C128",
   "status": "partial",
   "theorems": [
    "C128_creation_partial",
    "C128_jacobian_refuted",
    "C128_refused_traces_refuted"
   ],
   "note": "Proved: exact success condition and exception of every combination. REFUTED: jacFlag is refused for SinglePhaseConstantVdc, ThreePhaseConstantVdc and the Numba model although they define the Jacobian; a refused creation has used up a simulation number and changed events.del_t_event."
  },
  {
   "property": "C129",
   "status": "proved",
   "theorems": [
    "C129_follows_settling_reference",
    "C129_current_settles",
    "C129_reaches_reference"
   ],
   "note": "All five systems of equations, stand-alone (source impedance of line, grid and load) and co-simulation, constant or settling reference, DC and grid voltage; the shipped gains satisfy the condition on the gains. Saturated duty cycle is outside the statement (see C53, C124)."
  },
  {
   "property": "C130",
   "status": "partial",
   "theorems": [
    "C130_refused_iff_lengths_differ",
    "C130_stored_angles",
    "C130_difference_partial",
    "C130_difference_refuted"
   ],
   "note": "Stored angles proved. REFUTED for the plotted difference: it is not wrapped, so phasors on either side of the negative real axis show a difference that is off by a full turn. Proved: correct modulo a turn, and exact when both phasors are in the right half plane."
  },
  {
   "property": "C131",
   "status": "partial",
   "theorems": [
    "C131_next_run_follows_schedule_partial",
    "C131_after_failed_run_refuted"
   ],
   "note": "REFUTED after a run that raised: run_simulation resets the event counters only when the solver returns, so the next run starts in the event reached by the failed one. Proved after completed runs, and after failed ones once reset_event_counters is called."
  },
  {
   "property": "C132",
   "status": "partial",
   "theorems": [
    "C132_unique_partial",
    "C132_no_run_at_limit",
    "C132_some_run_refuted",
    "C132_continues_partial",
    "C132_exactly_one_partial"
   ],
   "note": "REFUTED: the anti-windup switches the derivatives off only strictly above the limit, so from a duty cycle exactly at its limit and pushed outwards the equations have no solution for any length of time (any model; witness: a DER disconnected by a fault). Proved, all five models: from every state strictly inside the modulation and current limits (DC voltage positive) with inputs that do not jump there is a run for a positive time and it is the only one, and it continues to the end of the interval unless it comes near a limit, grows beyond every bound or its DC voltage vanishes; at most one run for as long as one of them stays clear of its limits."
  },
  {
   "property": "C133",
   "status": "proved",
   "theorems": [
    "C133_small_changes_stay_small"
   ],
   "note": "All five models; the constant depends on the run, not on the second initial state. Stated for runs inside the limits, outside of which C132 shows there may be no run at all."
  },
  {
   "property": "C134",
   "status": "partial",
   "theorems": [
    "C134_conversion",
    "C134_unassigned_steps_agree_partial",
    "C134_copied_step_agrees_partial",
    "C134_own_step_refuted"
   ],
   "note": "REFUTED: assigning the time step of a simulation after its creation (as the repository's tests and notebooks do) leaves the step of the events object at 0.001 s, so a small phase jump is reported with a frequency deviation 8 times too large, or an admissible event aborts the run with ValueError. Proved: the conversion for every step of the events object and every schedule; the two steps agree as long as neither is assigned, and after the user copies the step, until the next assignment to them or creation."
  },
  {
   "property": "C135",
   "status": "proved",
   "theorems": [
    "C135_small_input_changes_stay_small"
   ],
   "note": "All five models; the constant and the admissible change depend on the run, not on the changed inputs. Stated for runs inside the limits, outside of which C132 shows there may be no run at all; temperature and array layout are not varied."
  },
  {
   "property": "C136",
   "status": "proved",
   "theorems": [
    "C136_no_state_runs_away",
    "C136_ends_only_at_a_limit",
    "C136_one_run_over_the_interval"
   ],
   "note": "All five models. Margin d and DC voltage floor c are arbitrary positive numbers. Assumes a non-zero DC capacitance and a DC voltage base that is not negative; what happens at the limits is C132."
  },
  {
   "property": "C137",
   "status": "partial",
   "theorems": [
    "C137_relabelled_run_partial",
    "C137_third_of_a_cycle_partial",
    "C137_balanced_voltages_partial",
    "C137_same_results",
    "C137_three_times",
    "C137_determined_partial",
    "C137_which_phase_is_a_refuted",
    "C137_same_clock_refuted"
   ],
   "note": "REFUTED as stated in two ways: at the modulation limit (the anti-windup tests compare signs of real and imaginary parts, so the integrators of the renamed phases move differently), and for voltages with a negative-sequence component when the clock is left alone (the PLL sees that component at another angle). Proved: while the duty cycles are within their limit, the renamed run is a run once clock and PLL angle are moved by a third of a cycle - exact also for unbalanced voltages - or, without negative-sequence voltage, on the same clock; it is the only run from the renamed start while clear of the limits; and all totals and magnitudes agree in every state."
  },
  {
   "property": "C138",
   "status": "partial",
   "theorems": [
    "C138_whole_cycles_partial",
    "C138_half_cycles_partial",
    "C138_any_time_partial",
    "C138_determined_partial",
    "C138_start_time_refuted"
   ],
   "note": "REFUTED as stated: absolute time enters through the angle of the grid voltage, so a start a quarter of a cycle later from the same state makes the PLL pull in again. Proved, for all models and also at the limits: exact for a delay of whole cycles (PLL angle unchanged or moved by whole turns); exact for half cycles if the initial PLL angle is moved along; exact for any delay if the initial PLL angle is moved along and there is no negative-sequence voltage (always the case in the single-phase and balanced models). Clear of the limits the delayed run is the only one."
  },
  {
   "property": "C139",
   "status": "partial",
   "theorems": [
    "C139_energy_account_partial",
    "C139_no_energy_from_nothing_partial",
    "C139_stored_energy_is_all_partial",
    "C139_dark",
    "C139_constant_vdc_refuted"
   ],
   "note": "REFUTED for the models with constant DC voltage: their ideal DC source delivers energy also while the DER is disconnected. Proved for the single-phase, three-phase and balanced models with DC link, by exact energy account with meters (functions whose derivative is the power); requires a DC voltage that does not vanish on the interval and a non-negative filter resistance."
  },
  {
   "property": "C140",
   "status": "proved",
   "theorems": [
    "C140_voltage_change",
    "C140_voltage_band",
    "C140_voltage_and_power",
    "C140_voltage_and_power_total",
    "C140_no_rise_without_power",
    "C140_absorbing_lowers_voltage",
    "C140_power_taken_is_limited",
    "C140_imposed_voltage",
    "C140_more_load"
   ],
   "note": "Per phase and for the sum over the phases of the DER. Hypotheses: non-zero turns ratio, grid side and load do not generate active power, and their series impedance does not vanish; \"more load\" additionally needs an angle of at most 90 degrees between the two impedances."
  },
  {
   "property": "C141",
   "status": "partial",
   "theorems": [
    "C141_one_operating_point_partial",
    "C141_short_circuit_refuted"
   ],
   "note": "REFUTED without a bound on the current: a DER in the dark can stand still without current or with the short-circuit current (C141_short_circuit_refuted). Proved for all five models when both states carry less than half the short-circuit current (open-circuit voltage, in three phases its positive sequence, divided by source impedance plus filter resistance) and modulation and current reference are within their limits."
  },
  {
   "property": "C142",
   "status": "proved",
   "theorems": [
    "C142_infeasible_has_none",
    "C142_feasible_has_one"
   ],
   "note": "Both directions, for all five models. Existence needs non-zero filter inductance, DC voltage and open-circuit voltage (in three phases its positive sequence); passive network as in C129/C140."
  }
 ]
}