{"id": "C01", "title": "Event schedules stay sorted, duplicate-free and in range", "statement": "After any sequence of calls to add_solar_event/add_grid_event/add_load_event, remove_*_event, insolation_ramp, create_random_*_events, solar_events/grid_events/load_events(t) and reset_event_counters on a fresh SimulationEvents, each of the three schedules is strictly increasing in T (so no two events of one kind share a time) and every stored event has values inside the advertised limits; the reported totals equal the list lengths in every history that contains no REMOVE_ALL clearing call.", "quantifier": "every finite sequence of API calls with arbitrary (also rejected) arguments", "why_tests_cant": "infinitely many call sequences; adds interleave with queries that themselves rewrite grid events", "anchors": ["pvder/simulation_events.py:add_solar_event,add_grid_event,add_load_event,remove_grid_event,remove_load_event,grid_events,update_event_totals"]}
{"id": "C02", "title": "Adding an event replaces exactly the event at the same time", "statement": "An accepted add_*_event(T, v) makes v the event at T, and leaves the event (or absence) at every other time, and both other schedules, exactly as before; the later of two adds at one T wins.", "quantifier": "every well-formed schedule, every time T and value v", "why_tests_cant": "needs all schedules and all times; the code removes elements from the list it is iterating over", "anchors": ["pvder/simulation_events.py:add_solar_event,add_grid_event,add_load_event"]}
{"id": "C03", "title": "Event validation is exact and atomic", "statement": "add_solar_event / add_grid_event / add_load_event raise ValueError exactly when a value is outside its documented range (insolation and voltage/frequency limits of the instance's spec, 250..375 K, non-negative load resistance), and a rejected add changes nothing.", "quantifier": "every state and every argument", "why_tests_cant": "boundary behaviour over a continuum of values and over every prior state", "anchors": ["pvder/simulation_events.py:add_solar_event,add_grid_event,add_load_event"]}
{"id": "C04", "title": "Active solar/load event during a forward simulation", "statement": "When the simulation time never decreases and no more than one event boundary is crossed between two consecutive queries, solar_events(t)/load_events(t) return the value of the latest event with T<=t, or the default value before the first event.", "quantifier": "every schedule, every non-decreasing query sequence of any length that crosses at most one boundary per step", "why_tests_cant": "history dependent through a private counter", "anchors": ["pvder/simulation_events.py:solar_events,load_events"]}
{"id": "C05", "title": "Active event for arbitrary query times", "statement": "For every schedule and any query sequence, solar_events(t) returns the latest event with T<=t.", "quantifier": "every schedule, every query sequence (also skipping or going back in time)", "why_tests_cant": "the failing histories need skipped boundaries or backward solver steps", "anchors": ["pvder/simulation_events.py:solar_events"]}
{"id": "C06", "title": "Grid event queries report the scheduled voltage and frequency", "statement": "With the default angle override, under the forward non-skipping discipline grid_events(t) returns voltage magnitude and frequency of the latest event with T<=t, the default before the first one.", "quantifier": "every schedule, every forward non-skipping query sequence", "why_tests_cant": "the query itself rewrites the schedule while it is being traversed", "anchors": ["pvder/simulation_events.py:grid_events"]}
{"id": "C07", "title": "Phase angle follows frequency under angle override", "statement": "With angle override, for events activated in order the reported phase angle is default_angle + 2*pi*del_t*(f - f_default) of the active event only: the accumulated per-event increments telescope, and repeating a query does not change it.", "quantifier": "every schedule and number of activated events", "why_tests_cant": "accumulation over unboundedly many events", "anchors": ["pvder/simulation_events.py:grid_events"]}
{"id": "C08", "title": "Event queries never crash", "statement": "As long as no event is removed, solar_events/grid_events/load_events never raise, for any times and any interleaved adds (grid_events: with the default angle override on).", "quantifier": "every call sequence without removals, every time", "why_tests_cant": "IndexError depends on counter/list history", "anchors": ["pvder/simulation_events.py:solar_events,grid_events,load_events"]}
{"id": "C09", "title": "Removing events", "statement": "remove_grid_event(T)/remove_load_event(T)/remove_solar_event(T) removes exactly the event at T, keeps all others, and later queries keep working.", "quantifier": "every schedule, T, and later query", "why_tests_cant": "failing histories combine counters and removal", "anchors": ["pvder/simulation_events.py:remove_solar_event,remove_grid_event,remove_load_event"]}
{"id": "C10", "title": "Random events are always admissible", "statement": "create_random_insolation_events/create_random_voltage_events never raise, for any outcome of the random generator, and only touch the schedule at the given time.", "quantifier": "every random draw r in [0,1), every state whose limits have min<=max and admit 60 Hz", "why_tests_cant": "random draws cannot be enumerated", "anchors": ["pvder/simulation_events.py:create_random_events,create_random_insolation_events,create_random_voltage_events"]}
{"id": "C11", "title": "Insolation ramps interpolate and reach their target", "statement": "insolation_ramp(tstart,tstop,target,tstep) adds events at tstart+i*tstep (i < ceil((tstop-tstart)/tstep)) whose insolation is the straight line from the insolation active at tstart to the target, ending exactly at the target.", "quantifier": "every start/stop/step/target", "why_tests_cant": "number of points unbounded", "anchors": ["pvder/simulation_events.py:insolation_ramp"]}
{"id": "C12", "title": "Voltage ramps work", "statement": "voltage_ramp(tstart,tstop,vg_target,tstep) adds a linear sequence of grid voltage events.", "quantifier": "every argument", "why_tests_cant": "-", "anchors": ["pvder/simulation_events.py:voltage_ramp"]}
{"id": "C13", "title": "Event specifications are per instance", "statement": "Passing events_spec to one SimulationEvents does not change the limits or defaults of any other instance.", "quantifier": "every pair of instances and every spec", "why_tests_cant": "needs a two-instance history", "anchors": ["pvder/simulation_events.py:__init__,update_events_spec,_events_spec"]}
{"id": "C14", "title": "Low-voltage trip characterised by the voltage history", "statement": "An LVRT zone trips at a processed sample exactly when the measured RMS voltage is below the zone threshold there and there is an earlier processed sample, more than t_threshold earlier, since which the voltage has been below (never above) the threshold; otherwise the DER rides through. LVRT_TRIP is the disjunction over zones and is latched.", "quantifier": "every configured zone list, every strictly increasing sequence of (time, voltage) samples of any length", "why_tests_cant": "timing behaviour over unbounded histories", "anchors": ["pvder/DER_features.py:LVRT,update_ridethrough_flags"]}
{"id": "C15", "title": "High-voltage trip characterised by the voltage history", "statement": "The mirrored statement for HVRT zones and voltages above the threshold.", "quantifier": "every zone list and sample history", "why_tests_cant": "as above", "anchors": ["pvder/DER_features.py:HVRT"]}
{"id": "C16", "title": "A trip is permanent", "statement": "With frequency ride-through disabled (the default), once the DER has tripped on voltage and disconnected it never reconnects and stays tripped, whatever the later voltages, times and flags of momentary cessation.", "quantifier": "every later sequence of evaluations", "why_tests_cant": "unbounded future", "anchors": ["pvder/DER_features.py:update_ridethrough_flags,disconnect_or_reconnect"]}
{"id": "C17", "title": "Ride-through logic ignores repeated and backward solver times", "statement": "Evaluating the ride-through and connection logic at a time not later than the latest processed time changes no flag, timer or connection status.", "quantifier": "every state, every voltage, every t<=last processed time", "why_tests_cant": "adaptive solvers step back in ways tests cannot enumerate", "anchors": ["pvder/DER_features.py:update_ridethrough_flags,disconnect_or_reconnect"]}
{"id": "C18", "title": "Healthy voltage never disturbs the DER", "statement": "If all sampled voltages lie between (not beyond) every LV threshold and every HV threshold and, when frequency ride-through is enabled, all sampled frequencies are at or above every low-frequency threshold, then, starting from initialisation, the evaluation never raises, no trip, no momentary cessation and no disconnection ever occurs and no controller reference is touched by the ride-through logic.", "quantifier": "every history of any length", "why_tests_cant": "unbounded history", "anchors": ["pvder/DER_features.py:LVRT,HVRT,disconnect_or_reconnect"]}
{"id": "C19", "title": "Momentary cessation timing", "statement": "LVRT/HVRT momentary cessation is entered only by a zone in momentary_cessation mode after the voltage has stayed in the zone for at least t_min_ridethrough (and not more than t_threshold), and while no zone leaves, it stays set.", "quantifier": "every zone list and history", "why_tests_cant": "timing over histories", "anchors": ["pvder/DER_features.py:LVRT,HVRT"]}
{"id": "C20", "title": "Momentary cessation persists while the voltage is in the zone", "statement": "While the voltage stays below the threshold of a momentary-cessation zone that has been entered for at least t_min_ridethrough, the LVRT momentary cessation flag is set at every evaluation.", "quantifier": "every multi-zone configuration and history", "why_tests_cant": "several zones share one flag", "anchors": ["pvder/DER_features.py:LVRT"]}
{"id": "C21", "title": "Overvoltage on any phase is detected", "statement": "If any phase RMS voltage exceeds an HVRT threshold for longer than its time threshold, the DER trips.", "quantifier": "every phase voltage triple and measurement type", "why_tests_cant": "needs unbalanced cases for each measurement type", "anchors": ["pvder/DER_features.py:get_Vrms_measured,HVRT", "pvder/DER_components_three_phase.py:update_voltages"]}
{"id": "C22", "title": "Disconnection happens only after trip/cessation plus delay", "statement": "With frequency ride-through disabled (the default), or enabled and not tripped, the DER goes from connected to disconnected only at an evaluation where the trip or momentary-cessation flag is set and at least output_cessation_delay after an earlier evaluation at which the flag was set and the timer was started.", "quantifier": "every flag/time history", "why_tests_cant": "timer history", "anchors": ["pvder/DER_features.py:disconnect_or_reconnect,DER_disconnect_logic"]}
{"id": "C23", "title": "A short disturbance does not use up the disconnect delay", "statement": "If a flag clears before the delay elapses, a later disturbance starts a fresh disconnect delay.", "quantifier": "every flag/time history", "why_tests_cant": "requires two disturbances with specific timing", "anchors": ["pvder/DER_features.py:DER_disconnect_logic"]}
{"id": "C24", "title": "Reconnection requires an uninterrupted restore delay", "statement": "With frequency ride-through disabled (the default), or enabled and not tripped, the DER goes from disconnected to connected at time t only if it was not tripped, momentary cessation was clear at every processed evaluation since a start time more than output_restore_delay earlier.", "quantifier": "every flag/time history", "why_tests_cant": "timer history", "anchors": ["pvder/DER_features.py:DER_reconnect_logic,disconnect_or_reconnect"]}
{"id": "C25", "title": "References are zero whenever disconnected", "statement": "After every evaluation of the connection logic that leaves the DER disconnected, Q_ref, Ppv and all three current references are zero and Vdc_ref equals the measured Vdc, also at repeated/backward times.", "quantifier": "every state, every t", "why_tests_cant": "every evaluation incl. backward steps", "anchors": ["pvder/DER_features.py:disconnect_or_reconnect,DER_disconnect"]}
{"id": "C26", "title": "Volt-VAR resumes after reconnection", "statement": "If Volt-VAR control was enabled before a disconnection it is enabled again after the DER has reconnected.", "quantifier": "every history with a disconnect followed by a reconnect", "why_tests_cant": "long history needed", "anchors": ["pvder/DER_features.py:DER_disconnect,DER_reconnect_logic"]}
{"id": "C27", "title": "Accepted VRT settings are sane", "statement": "check_VRT_settings raises no error exactly when all LV thresholds are in (0,1) and non-increasing in level order, all HV thresholds in (1,limit) and non-decreasing, all times in (0,limit), all modes valid and delays not below the limits.", "quantifier": "every configuration of any number of zones", "why_tests_cant": "infinitely many configurations; order check runs on every prefix", "anchors": ["pvder/DER_features.py:check_VRT_settings"]}
{"id": "C28", "title": "Frequency ride-through trips on sustained underfrequency only", "statement": "With LFRT enabled, LFRT_TRIP becomes true exactly when frequency has been at/below a zone limit for at least t_LF_limit; and evaluating afterwards does not crash.", "quantifier": "every frequency history", "why_tests_cant": "timing history", "anchors": ["pvder/DER_features.py:FRT,DER_reconnect_logic"]}
{"id": "C29", "title": "Frequency ride-through settings are per instance", "statement": "Ride-through timers and limits of one DER never influence another DER built from the same template/configuration.", "quantifier": "every pair of DERs", "why_tests_cant": "aliasing only visible across instances", "anchors": ["pvder/DER_features.py:FRT_initialize,VRT_initialize,FRT_INSTANTANEOUS_TRIP"]}
{"id": "C30", "title": "Volt-VAR output is bounded and has the right sign", "statement": "Whenever the voltage is inside the exact inject (absorb) range at a processed time, the reactive reference lies in [0, min(Qlimit, 0.44*S)] (resp. the negation), is zero at the inner edge and 0.44*S at the outer edge (subject to Qlimit), and is non-increasing in voltage; outside all ranges it is 0.", "quantifier": "every voltage, rating, limit and state", "why_tests_cant": "continuum", "anchors": ["pvder/DER_features.py:Volt_VAR_logic,Q_Volt_VAR_inject,Q_Volt_VAR_absorb"]}
{"id": "C31", "title": "Volt-VAR never exceeds the inverter capability", "statement": "Every value returned by Volt_VAR_logic satisfies |Q| <= Qlimit of that evaluation.", "quantifier": "every state, voltage, time", "why_tests_cant": "hold branch in dead band depends on history", "anchors": ["pvder/DER_features.py:Volt_VAR_logic"]}
{"id": "C32", "title": "Reactive capability limit", "statement": "Qlimit_calc never raises and returns a value in [0, Snominal] with P^2+Q^2 <= Snominal^2 for any |P|<=Snominal, whatever the instantaneous power and current.", "quantifier": "every real power, current, reactance>=0", "why_tests_cant": "continuum incl. overload values", "anchors": ["pvder/DER_features.py:Qlimit_calc"]}
{"id": "C33", "title": "Reference current ramp limit", "statement": "For the three-phase DER types and increasing evaluation times, each component of the current reference changes between two evaluations by at most max_gradient*dt, moves towards the command, never overshoots it, and reaches it if the command stays constant long enough.", "quantifier": "every command sequence and step sequence", "why_tests_cant": "continuum/history", "anchors": ["pvder/DER_utilities.py:get_ramp_limited_iref,get_iref_actual"]}
{"id": "C34", "title": "Ramp limit holds for every solver step", "statement": "The rate limit also holds when the solver evaluates earlier times, and for single-phase DERs.", "quantifier": "every time sequence", "why_tests_cant": "backward steps", "anchors": ["pvder/DER_utilities.py:get_ramp_limited_iref", "pvder/DER_components_single_phase.py:update_iref", "pvder/DER_components_three_phase.py:update_iref"]}
{"id": "C35", "title": "DC-link reference schedule", "statement": "add_Vdc_ref accepts exactly values in the allowed window, replaces the reference at the same time, and get_Vdc_ref follows the latest reference for forward non-skipping times.", "quantifier": "every schedule, every query sequence", "why_tests_cant": "history", "anchors": ["pvder/DER_utilities.py:add_Vdc_ref,get_Vdc_ref"]}
{"id": "C36", "title": "DC-link ramps", "statement": "Vdc_ref_ramp(t, target) schedules a monotone ramp from the present reference to exactly the target at the documented rate, any number of times.", "quantifier": "every start, target, number of previous ramps", "why_tests_cant": "state carried between calls", "anchors": ["pvder/DER_utilities.py:Vdc_ref_ramp"]}
{"id": "C37", "title": "DC-link schedules are per instance", "statement": "References scheduled on one DER do not affect another DER.", "quantifier": "every pair of DERs", "why_tests_cant": "aliasing", "anchors": ["pvder/DER_utilities.py:Vdc_ref_list,add_Vdc_ref"]}
{"id": "C38", "title": "Parameter precedence", "statement": "For each configuration item the value used is the keyword argument if given, else the DER config entry, else the parent config entry, else the template default; a wrongly typed config value is rejected with ValueError.", "quantifier": "every combination of sources, types and values", "why_tests_cant": "combinatorial", "anchors": ["pvder/DER_check_and_initialize.py:update_DER_parameter"]}
{"id": "C39", "title": "DER argument resolution", "statement": "Each recognised argument resolves to: the keyword argument if it has the declared type, otherwise the config value, otherwise the declared default when it is not None; nothing else is produced.", "quantifier": "every argument dictionary and config", "why_tests_cant": "combinatorial", "anchors": ["pvder/DER_components.py:get_DER_arguments"]}
{"id": "C40", "title": "Specification inheritance", "statement": "The completed config takes model_type, Srated and Vrmsrated from the DER entry, else from the parent, else raises ValueError.", "quantifier": "every config/parent pair", "why_tests_cant": "combinatorial", "anchors": ["pvder/DER_components.py:update_DER_config_specs,get_DER_parent_id"]}
{"id": "C41", "title": "Every advertised model type can be built", "statement": "DERModel constructs every model type that the templates advertise and rejects all others with ValueError.", "quantifier": "every model-type string", "why_tests_cant": "string domain infinite", "anchors": ["pvder/DER_wrapper.py:create_DER_model", "pvder/templates.py", "pvder/DER_check_and_initialize.py:initialize_basic_specs"]}
{"id": "C42", "title": "User initial states are honoured", "statement": "An initial state (e.g. ia0) supplied as argument is the state the DER starts from.", "quantifier": "every value", "why_tests_cant": "", "anchors": ["pvder/DER_check_and_initialize.py:initialize_states", "pvder/specifications.py:DER_argument_spec"]}
{"id": "C43", "title": "Parameter dictionaries", "statement": "update/get/save/load of the parameter dictionary: update_parameter_dict changes only known keys; what was saved is what is loaded.", "quantifier": "every dictionary", "why_tests_cant": "unbounded dictionaries", "anchors": ["pvder/DER_utilities.py:update_parameter_dict,save_parameter_dictionary,load_parameter_dictionary,get_parameter_dictionary"]}
{"id": "C44", "title": "Balanced phasor construction", "statement": "Ub_calc and Uc_calc preserve magnitude, the three phasors sum to zero, and are exactly 120 degrees apart.", "quantifier": "every complex number", "why_tests_cant": "continuum", "anchors": ["pvder/utility_functions.py:Ub_calc,Uc_calc"]}
{"id": "C45", "title": "abc/dq0 transforms are inverse", "statement": "dq0_to_abc(abc_to_dq0(x)) = x and conversely, for every angle.", "quantifier": "every triple and angle", "why_tests_cant": "continuum", "anchors": ["pvder/utility_functions.py:abc_to_dq0,dq0_to_abc"]}
{"id": "C46", "title": "Symmetrical components reconstruct the phasors", "statement": "Zero-, positive- and negative-sequence components satisfy Ua=U0+U1+U2 etc. and a balanced positive-sequence set has zero negative- and zero-sequence component.", "quantifier": "every phasor triple", "why_tests_cant": "continuum", "anchors": ["pvder/utility_functions.py:phasor_to_symmetrical,phasor_to_zero_sequence,phasor_to_positive_sequence,phasor_to_negative_sequence"]}
{"id": "C47", "title": "PLL error signal", "statement": "For a balanced three-phase voltage of peak V and phase p the quadrature signal used by the PLL equals V*sin(w*t+p-wte) up to the documented axis convention; the lock point wte=w*t+p is an equilibrium.", "quantifier": "every amplitude, phase, time, PLL angle", "why_tests_cant": "continuum", "anchors": ["pvder/utility_functions.py:phasor_to_time,abc_to_dq0,alpha_beta_to_d_q", "pvder/DER_utilities.py:we_calc"]}
{"id": "C48", "title": "RMS measurements", "statement": "Urms_min_calc is the smallest and Urms_calc the quadratic mean of the three per-phase RMS values; min<=mean<=max; both equal the phase RMS when balanced and are never negative.", "quantifier": "every phasor triple", "why_tests_cant": "continuum", "anchors": ["pvder/utility_functions.py:Urms_calc,Urms_min_calc,Urms_calc_1phase"]}
{"id": "C49", "title": "PV power", "statement": "Ppv_calc is never negative, never raises, is non-decreasing in insolation, zero in the dark, for a non-positive DC voltage and at or beyond open circuit, and positive in between.", "quantifier": "every insolation, temperature, DC voltage", "why_tests_cant": "continuum", "anchors": ["pvder/DER_components.py:Ppv_calc,Iph_calc"]}
{"id": "C50", "title": "Circuit equations conserve current", "statement": "In stand-alone mode the computed PCC voltage satisfies Kirchhoff's current law at the PCC (inverter current = load + transformed grid current).", "quantifier": "every impedance and phasor with non-singular denominator", "why_tests_cant": "continuum", "anchors": ["pvder/DER_utilities.py:va_calc,vb_calc,vc_calc"]}
{"id": "C51", "title": "Power balance at the inverter filter", "statement": "Along every trajectory of the single-phase and three-phase models the stored energy changes exactly by PV power minus PCC power minus filter loss; at a current steady state, inverter terminal power equals PCC power plus filter loss 1/2*Zf*|i|^2 per phase.", "quantifier": "every operating point", "why_tests_cant": "continuum", "anchors": ["pvder/DER_components_single_phase.py:ODE_model,S_calc,S_PCC_calc", "pvder/DER_components_three_phase.py:ODE_model,S_calc,S_PCC_calc"]}
{"id": "C52", "title": "Jacobian is the derivative of the model", "statement": "Every entry of the Jacobian passed to the solver equals the partial derivative of the corresponding state derivative.", "quantifier": "every state (unsaturated)", "why_tests_cant": "continuum of states x 11^2 / 23^2 entries", "anchors": ["pvder/DER_components_single_phase.py:jac_ODE_model", "pvder/DER_components_three_phase.py:jac_ODE_model"]}
{"id": "C53", "title": "Controller anti-windup", "statement": "When the modulation index saturates (|m|>limit) the current-controller integrator is not driven further into saturation, and the applied modulation never exceeds the limit.", "quantifier": "every state", "why_tests_cant": "continuum", "anchors": ["pvder/DER_components_single_phase.py:ODE_model", "pvder/DER_components_three_phase.py:ODE_model"]}
{"id": "C54", "title": "State vector layout", "statement": "Each DER model's y0 lists exactly n_ODE states in the order ODE_model unpacks and collect_states stores them, for every model type.", "quantifier": "every model type and state value", "why_tests_cant": "all states/orderings", "anchors": ["pvder/dynamic_simulation.py:y0,collect_states", "pvder/DER_components_single_phase.py:y0,ODE_model", "pvder/DER_components_three_phase.py:y0,ODE_model"]}
{"id": "C55", "title": "Loop-mode restart equals the last solution point", "statement": "In loop mode, the next interval starts from the final state of the previous interval.", "quantifier": "every solution", "why_tests_cant": "history", "anchors": ["pvder/dynamic_simulation.py:y0,collect_last_states,run_simulation"]}
{"id": "C56", "title": "Trajectory lengths stay consistent", "statement": "After any history of one or more loop-mode run_simulation intervals, with trajectory reads in between, get_trajectories returns every documented series with exactly the time axis' length: the initial value followed by its value at each new time point, with no duplicated joint points; a batch run gives one sample per grid point.", "quantifier": "every number and length of intervals", "why_tests_cant": "unbounded", "anchors": ["pvder/dynamic_simulation.py:collect_last_states,collect_full_trajectory,get_trajectories"]}
{"id": "C57", "title": "Time grid", "statement": "The simulation time vector starts at tStart, has uniform spacing tInc and covers tStop.", "quantifier": "every tStart<=tStop, tInc>0", "why_tests_cant": "continuum", "anchors": ["pvder/dynamic_simulation.py:t_calc"]}
{"id": "C58", "title": "Grid model consistency", "statement": "With a balanced grid the three phase voltages are a balanced set scaled by the event voltage; frequency and voltage only change through events and never go back in time.", "quantifier": "every event sequence and time", "why_tests_cant": "history", "anchors": ["pvder/grid_components.py:Grid.steady_state_model"]}
{"id": "C59", "title": "Reported grid power", "statement": "The time-series grid power of a three-phase DER equals the instantaneous grid power summed over the phases.", "quantifier": "every trajectory", "why_tests_cant": "continuum", "anchors": ["pvder/dynamic_simulation.py:time_series_S", "pvder/DER_components_three_phase.py:S_G_calc"]}
{"id": "C60", "title": "Per-unit base consistency", "statement": "Vbase*Ibase=Sbase, Zbase=Vbase/Ibase, wbase*Lbase=Zbase, wbase*Cbase*Zbase=1: per-unit and physical circuit equations agree.", "quantifier": "the library's base values; every impedance, current and voltage", "why_tests_cant": "continuum", "anchors": ["pvder/grid_components.py:BaseValues"]}
{"id": "C61", "title": "Solver failures are always reported", "statement": "check_simulation raises exactly when some solver step has an invalid method indicator (0 or >2), records the first failing time, and otherwise marks the run converged.", "quantifier": "every status list", "why_tests_cant": "unbounded lists", "anchors": ["pvder/simulation_utilities.py:check_simulation"]}
{"id": "C62", "title": "MPP reference clamp", "statement": "The maximum-power-point voltage used as reference always lies inside [Vdcmpp_min, Vdcmpp_max].", "quantifier": "every insolation/temperature/polynomial", "why_tests_cant": "continuum", "anchors": ["pvder/DER_utilities.py:MPP_table"]}
{"id": "C63", "title": "A voltage trip is permanent also with frequency ride-through enabled", "statement": "With LFRT enabled, a DER that has tripped on voltage and disconnected never reconnects.", "quantifier": "every initial configuration and every sequence of voltages, frequencies and times", "why_tests_cant": "the failing history needs a voltage trip followed by a frequency trip", "anchors": ["pvder/DER_features.py:FRT,DER_reconnect_logic,disconnect_or_reconnect"]}
{"id": "C64", "title": "The ride-through logic never aborts a simulation", "statement": "With frequency ride-through and restore_Vdc disabled (the defaults) and a valid measurement type, no sequence of evaluation times and voltages makes the ride-through and connection logic raise an exception.", "quantifier": "every configuration of zones and delays, every sequence of times and voltages", "why_tests_cant": "assertions deep inside the state machine; needs all reachable states", "anchors": ["pvder/DER_features.py:update_ridethrough_flags,disconnect_or_reconnect,DER_disconnect_logic,DER_reconnect_logic"]}
{"id": "C65", "title": "restore_Vdc brings the DC link back after reconnection", "statement": "With restore_Vdc enabled, reconnection after momentary cessation ramps the DC-link reference to its set point and never aborts the simulation.", "quantifier": "every reachable disconnected state", "why_tests_cant": "depends on the DC voltage held while disconnected", "anchors": ["pvder/DER_features.py:DER_reconnect_logic", "pvder/DER_utilities.py:Vdc_ref_ramp"]}
{"id": "C66", "title": "Volt-VAR never acts against the voltage deviation", "statement": "At every newly processed time the reactive reference is not negative while the voltage is below the reference voltage and not positive while it is above.", "quantifier": "every voltage history", "why_tests_cant": "depends on the value held from an earlier hysteresis band", "anchors": ["pvder/DER_features.py:Volt_VAR_logic,Q_Volt_VAR_inject,Q_Volt_VAR_absorb"]}
{"id": "C67", "title": "Relative phase between phasors", "statement": "relative_phase_calc returns an angle in [0, 2*pi) (or the same angle in degrees) by which the first phasor leads the second: |u||v|e^{jd} = u*conj(v).", "quantifier": "every pair of phasors", "why_tests_cant": "continuum, branch cut of the argument", "anchors": ["pvder/utility_functions.py:relative_phase_calc"]}
{"id": "C68", "title": "limit_complex clips the magnitude only", "statement": "For low<high, limit_complex returns a phasor with the same phase, magnitude inside [low, high], and unchanged when the magnitude was already inside.", "quantifier": "every phasor and limits", "why_tests_cant": "continuum", "anchors": ["pvder/utility_functions.py:limit_complex"]}
{"id": "C69", "title": "The MPP equation has the maximum-power voltage as its only root", "statement": "A root of the equation solved for the MPP reference maximises the PV power over all voltages, is the only root inside the open-circuit range, and exists whenever there is insolation.", "quantifier": "every module, insolation and temperature", "why_tests_cant": "continuum optimisation", "anchors": ["pvder/DER_check_and_initialize.py:PVModule", "pvder/DER_utilities.py:MPP_table"]}
{"id": "C70", "title": "The configured insolation is the one used", "statement": "After construction the PV module produces the power of the insolation and temperature that were configured.", "quantifier": "every configured insolation/temperature and MPPT option", "why_tests_cant": "depends on construction side effects", "anchors": ["pvder/DER_check_and_initialize.py:PVModule"]}
{"id": "C71", "title": "Balanced model agrees with the full three-phase model", "statement": "On balanced inputs and states the full three-phase model returns the derivatives of the balanced model for phase a and the DC/PLL states, and balanced states stay balanced (derivatives of phases b, c are the rotated ones of phase a).", "quantifier": "every parameter set, balanced input and balanced state", "why_tests_cant": "continuum; relation between two models", "anchors": ["pvder/DER_components_three_phase.py:ODE_model", "pvder/DER_components_three_phase_balanced.py:ODE_model"]}
{"id": "C72", "title": "Derivatives are per second", "statement": "The derivatives of filter current and DC voltage returned by ODE_model, multiplied by the bases, are the physical ones (A/s, V/s) of the circuit with the configured L and C.", "quantifier": "every parameter set and state", "why_tests_cant": "continuum; units", "anchors": ["pvder/DER_components_single_phase.py:ODE_model", "pvder/DER_components_three_phase.py:ODE_model", "pvder/grid_components.py:BaseValues"]}
{"id": "C73", "title": "Re-running a simulation reproduces the grid voltage", "statement": "Running the same stand-alone simulation a second time with the same Grid object and the same events presents the same grid voltage at the same times.", "quantifier": "every event schedule, every sequence of solver times", "why_tests_cant": "needs two runs over one object and every schedule of events; a test that builds a fresh Grid never sees it", "anchors": ["pvder/grid_components.py:Grid.steady_state_model", "pvder/dynamic_simulation.py:run_simulation"]}
{"id": "C74", "title": "Selectable solvers", "statement": "Every solver in the documented solver list ('odeint', 'ode-vode-bdf') can be chosen when a simulation is created, an unknown one is rejected with a clear error, and the convergence flag returned by a run is that run's own.", "quantifier": "every model type, solver name and status history", "why_tests_cant": "all histories of solver selection and runs", "anchors": ["pvder/simulation_utilities.py:initialize_solver,call_ODE_solver,call_ode_solver", "pvder/dynamic_simulation.py:__init__"]}
{"id": "C75", "title": "Reading trajectories is harmless", "statement": "get_trajectories does not change the state from which the simulation continues, and reading twice gives the same answer, at any point of a loop-mode simulation.", "quantifier": "every model type, history of intervals and reads", "why_tests_cant": "interleavings", "anchors": ["pvder/dynamic_simulation.py:get_trajectories,invert_arrays,y0"]}
{"id": "C76", "title": "A batch run starts from the DER's current state", "statement": "run_simulation in batch mode integrates from the DER's current state over the time grid, whatever the simulation object holds from earlier runs; afterwards the simulation's state is the last point of that solution (for the full three-phase type see C55).", "quantifier": "every model type, DER state, solver, time settings and prior simulation object", "why_tests_cant": "all prior histories", "anchors": ["pvder/dynamic_simulation.py:run_simulation,initialize_y0_t,y0"]}
{"id": "C77", "title": "A DER always has an initial state vector", "statement": "A DER object that was created successfully can be simulated: its initial state vector y0 is readable, for each combination of construction options (in particular with steadyStateInitialization switched off).", "quantifier": "every configuration, model type and argument list whose construction succeeds", "why_tests_cant": "all configurations and argument lists", "anchors": ["pvder/DER_check_and_initialize.py:initialize_states", "pvder/DER_components.py:initialize_DER", "pvder/DER_components_three_phase.py:y0"]}
{"id": "C78", "title": "Every documented keyword argument has an effect", "statement": "Each keyword argument in the documented argument list (powerRating, VrmsRating, derConfig, derId, ia0, ..., wte0) influences the created DER: there is some configuration in which giving it changes the outcome.", "quantifier": "every configuration, argument list and value of the argument", "why_tests_cant": "all configurations and arguments", "anchors": ["pvder/DER_components.py:get_DER_arguments,initialize_DER", "pvder/DER_check_and_initialize.py:initialize_states"]}
{"id": "C79", "title": "Ride-through settings resolution", "statement": "The ride-through settings in force are the DER's own settings block when it has one and the template's otherwise; an inline config block takes precedence over a config_id reference; every zone is completed with its timer and flag entries and missing delays; a level that lacks a setting is rejected with ValueError and a reference to settings the file does not contain makes the construction fail.", "quantifier": "every configuration file, DER entry and argument list", "why_tests_cant": "all configuration files", "anchors": ["pvder/DER_features.py:update_RT_config,check_RT_config,initialize_VRT,FRT_initialize", "pvder/templates.py"]}
{"id": "C80", "title": "Verbosity argument", "statement": "Every verbosity the argument declaration accepts (a string or an integer level) is usable when creating a DER.", "quantifier": "every verbosity value, configuration and argument list", "why_tests_cant": "all values", "anchors": ["pvder/DER_wrapper.py:__init__", "pvder/utility_classes.py:initialize_logger", "pvder/templates.py"]}
{"id": "C81", "title": "Infeasible voltage ratings are rejected", "statement": "Creating a DER raises ValueError when the rated AC voltage cannot be produced from the DC link at the rated or minimum MPP voltage within the modulation limit, or when the grid voltage supplied by the caller is more than 10% away from the rated voltage; a DER that is created can produce its rated voltage at every angle.", "quantifier": "every rating, grid voltage and circuit parameter set", "why_tests_cant": "real-valued ratings", "anchors": ["pvder/DER_check_and_initialize.py:initialize_inverter_ratings,check_voltage,initialize_DER_model"]}
{"id": "C82", "title": "Per-unit parameters and rated current", "statement": "The per-unit ratings and impedances of a DER are the configured physical values divided by the base values, the filter, line and load impedances agree with their resistance/inductance parts, and the rated current carries the rated power at the rated voltage (the current limit is that times the overload factor).", "quantifier": "every rating and circuit parameter set", "why_tests_cant": "real-valued ratings", "anchors": ["pvder/DER_check_and_initialize.py:initialize_inverter_ratings,initialize_circuit_parameters", "pvder/grid_components.py:BaseValues"]}
{"id": "C83", "title": "External grid voltage units", "statement": "A grid voltage supplied by the caller means the same thing when the DER is created and when it is updated during a simulation, so a voltage accepted at creation is near the rated voltage when supplied again.", "quantifier": "every rating and grid voltage", "why_tests_cant": "real-valued voltages", "anchors": ["pvder/DER_check_and_initialize.py:initialize_grid_measurements,check_voltage", "pvder/dynamic_simulation.py:update_grid_measurements", "pvder/DER_utilities.py:va_calc"]}
{"id": "C84", "title": "A converged steady state solves the circuit", "statement": "When the error minimised by the steady-state calculation is at most eps^2, the power mismatch at the inverter, the reactive power mismatch at the PCC, the voltage mismatch over each filter and (three phases) the sum of the currents are at most eps; the balance term does not exclude any balanced solution.", "quantifier": "every parameter set, operating point, grid voltage and candidate solution", "why_tests_cant": "real-valued solutions", "anchors": ["pvder/DER_check_and_initialize.py:power_error_calc"]}
{"id": "C85", "title": "Steady-state start is an equilibrium", "statement": "A DER started from its steady-state calculation is at rest: at the first evaluation of the model every derivative vanishes (the PLL angle advances at nominal frequency), up to bounds proportional to the remaining error.", "quantifier": "every parameter set, operating point, grid voltage and converged solution", "why_tests_cant": "real-valued states", "anchors": ["pvder/DER_check_and_initialize.py:power_error_calc,steady_state_calc", "pvder/DER_components_single_phase.py:ODE_model", "pvder/DER_components_three_phase.py:ODE_model"]}
{"id": "C86", "title": "Initial controller integrators match the initial current", "statement": "The steady-state calculation raises ValueError when it does not converge and otherwise starts the outer-loop integrators at the steady-state current.", "quantifier": "every outcome of the minimiser", "why_tests_cant": "depends on the points the minimiser happens to evaluate", "anchors": ["pvder/DER_check_and_initialize.py:steady_state_calc,power_error_calc"]}
{"id": "C87", "title": "validate_model compares equal quantities", "statement": "For every set of voltages and currents the phasor and RMS figures of validate_model both equal the power at the inverter terminals, and the filter figures agree whenever the currents obey the filter impedance.", "quantifier": "every voltage, current and impedance, each model type", "why_tests_cant": "real-valued phasors", "anchors": ["pvder/DER_utilities.py:validate_model"]}
{"id": "C88", "title": "The PLL synchronises with a steady grid", "statement": "On a steady grid voltage the frequency of the PLL converges to the grid frequency from every state, its excursion is bounded by the energy of the initial error, and the phase error converges to zero without a cycle slip from every state below the energy barrier; a locked PLL stays exactly locked.", "quantifier": "every trajectory, grid frequency, voltage and angle, positive gains", "why_tests_cant": "infinite time, all initial states", "anchors": ["pvder/DER_utilities.py:we_calc,wte", "pvder/DER_components_single_phase.py:ODE_model", "pvder/DER_components_three_phase.py:ODE_model"]}
{"id": "C89", "title": "Voltage unbalance measure", "statement": "Uunbalance_calc of three magnitudes (not all zero) lies in [0,3], is zero exactly for equal magnitudes, is the largest difference over the mean, and does not depend on scale or on the order of the phases.", "quantifier": "every three non-negative magnitudes", "why_tests_cant": "real-valued", "anchors": ["pvder/utility_functions.py:Uunbalance_calc"]}
{"id": "C90", "title": "Estimated grid frequency", "statement": "The frequency estimated from successive grid voltage phasors equals the grid frequency once the grid runs steadily at 60 Hz again.", "quantifier": "every sequence of (time, voltage) samples", "why_tests_cant": "whole histories", "anchors": ["pvder/DER_utilities.py:wgrid_estimate,wgrid_estimate_calc"]}
{"id": "C91", "title": "Stored series are the quantities in use", "statement": "Every time series computed after the run (duty cycles, voltages, powers, RMS values, PV power) is, sample by sample, the value the model itself used at that state.", "quantifier": "every model type, every sequence of states and inputs", "why_tests_cant": "all trajectories", "anchors": ["pvder/dynamic_simulation.py:time_series_duty_cycle,time_series_PCC_LV_side_voltage,time_series_S,time_series_RMS,time_series_Ppv"]}
{"id": "C92", "title": "High-voltage-side voltage series", "statement": "The stored high-voltage-side voltage satisfies the circuit equations of the stand-alone network in every phase.", "quantifier": "every circuit, source voltage, current, phase and model type", "why_tests_cant": "real-valued circuits", "anchors": ["pvder/dynamic_simulation.py:time_series_PCC_HV_side_voltage", "pvder/DER_utilities.py:va_calc"]}
{"id": "C93", "title": "Power transfer series", "statement": "The stored power transfer is the active power sent over the line between grid source and high-voltage side.", "quantifier": "every circuit and voltage", "why_tests_cant": "real-valued circuits", "anchors": ["pvder/dynamic_simulation.py:time_series_power_transfer"]}
{"id": "C94", "title": "Filtered voltage measurement", "statement": "The filtered RMS voltage used by ride-through never leaves the range of the voltage it measures, follows the exact first-order step response, detects an under-voltage after exactly T*ln((v0-c)/(th-c)) seconds and converges to a steady voltage.", "quantifier": "every trajectory of the three-phase model, every voltage history, positive time constant", "why_tests_cant": "continuous-time histories", "anchors": ["pvder/DER_components_three_phase.py:ODE_model", "pvder/DER_features.py:get_Vrms_measured"]}
{"id": "C95", "title": "A disconnected DER is inert", "statement": "While disconnected, no state is influenced by irradiance or set points, no PV power enters, the DC-link loop is frozen and the current controller drives every phase current towards zero; its equilibria are exactly the states with zero current and power, terminals at grid voltage and PLL in step.", "quantifier": "every state, grid, parameter set; single, three-phase, balanced and constant-Vdc models", "why_tests_cant": "all states and inputs", "anchors": ["pvder/DER_features.py:DER_disconnect", "pvder/DER_components_single_phase.py:ODE_model", "pvder/DER_components_three_phase.py:ODE_model"]}
{"id": "C96", "title": "Equilibria meet the set points", "statement": "A connected DER within its limits is at rest exactly when DC link, reactive power and converted PV power are at their set points, the currents (a balanced set in three-phase models) equal the references, the PLL error is zero and the filter equations hold; the delivered active power is then the PV power minus the filter losses.", "quantifier": "every state, grid, set point and parameter set with non-zero gains", "why_tests_cant": "all states", "anchors": ["pvder/DER_components_single_phase.py:ODE_model", "pvder/DER_components_three_phase.py:ODE_model", "pvder/DER_utilities.py:ia_ref_calc,ib_ref_calc,ic_ref_calc"]}
{"id": "C97", "title": "Alternative implementations of the three-phase model agree", "statement": "The compiled (numba) and the unfiltered implementation of the three-phase DER have, for every state vector and parameter set, the same derivatives as the standard implementation, the compiled utility functions return the same values, and reading back the initial state vector gives the state it was built from.", "quantifier": "every state vector, time, parameter set, grid, irradiance", "why_tests_cant": "all real inputs of 23 states", "anchors": ["pvder/DER_components_three_phase_numba.py:ODE_model", "pvder/DER_components_three_phase_no_Vrms_filter.py:ODE_model", "pvder/DER_components_three_phase.py:ODE_model", "pvder/utility_functions.py:phasor_to_symmetrical_components,limit_complex"]}
{"id": "C98", "title": "Ride-through acts on the selected voltage measurement", "statement": "The voltage compared with the ride-through thresholds is the measurement the user selected, as it is at that moment.", "quantifier": "every model type, measurement option and history of states", "why_tests_cant": "all histories", "anchors": ["pvder/DER_features.py:get_Vrms_measured", "pvder/DER_check_and_initialize.py:steady_state_calc"]}
{"id": "C99", "title": "Grid events given by phase angle", "statement": "With the angle override switched off, a run plays the voltages and phase angles of the schedule and reports as frequency 60 Hz plus the rate of the angle step; queries never change the times, voltages or angles of the schedule.", "quantifier": "every reachable schedule, every forward sequence of query times", "why_tests_cant": "all schedules and histories", "anchors": ["pvder/simulation_events.py:grid_events"]}
{"id": "C100", "title": "New events object", "statement": "An events_spec argument with known keys sets exactly the entries it names (the last value wins) and one with an unknown key is rejected without effect; a new events object has empty schedules, the enable flags it was given, the angle override on, and answers every query with the documented defaults.", "quantifier": "every specification dictionary and argument, every query time", "why_tests_cant": "all nested arguments", "anchors": ["pvder/simulation_events.py:SimulationEvents.__init__,update_events_spec"]}
{"id": "C101", "title": "Three-phase DER with constant DC voltage", "statement": "A connected three-phase constant-Vdc DER within its limits is at rest exactly when PV power and reactive power meet their set points, its currents are the balanced set asked for, the filter equations hold and the PLL is in step; it then delivers the PV power minus the filter losses; disconnected it ignores set points and weather and can only rest at zero current and zero power; on a balanced grid it behaves exactly as three single-phase constant-Vdc DERs each with a third of the panels and reactive set point.", "quantifier": "every parameter set, grid voltage, set point, weather and state", "why_tests_cant": "continuum of states and parameters", "anchors": ["pvder/DER_components_three_phase_constant_Vdc.py:ODE_model,update_power,update_iref", "pvder/DER_utilities.py:ia_ref_activepower_control,vta_calc"]}
{"id": "C102", "title": "Error type of each documented misuse", "statement": "A stand-alone DER without a grid model, a grid-connected DER lacking one of the measurements its type needs, a configuration whose model type is unknown or not a string, a parameter that no source supplies or that an argument supplies with the wrong type, an unknown parameter dictionary or ID and an unknown voltage measurement type are refused with ValueError; a parameter name outside the design template with AssertionError; a ride-through table that is not an object with AttributeError. When the requirement is met these checks raise nothing.", "quantifier": "every argument dictionary, configuration file, parameter name, state and measurement", "why_tests_cant": "unbounded inputs; which exception escapes depends on the order of the checks", "anchors": ["pvder/DER_check_and_initialize.py:attach_grid_model,initialize_grid_measurements,update_DER_parameter", "pvder/DER_wrapper.py:create_DER_model", "pvder/DER_utilities.py:get_parameter_dictionary", "pvder/DER_features.py:get_Vrms_measured", "pvder/DER_features.py:check_RT_config"]}
{"id": "C103", "title": "Plots of a simulation", "statement": "After a simulation every plot type the results object advertises draws one curve per legend entry; each curve has one point per recorded instant and is exactly the recorded quantity its label names, in per unit or, with per-unit off, in SI units (volts, amperes, volt-amperes). An unknown plot type is refused with ValueError, and a comparison with an external series draws that series scaled into the same unit.", "quantifier": "every recorded trajectory of every length, both unit choices, stand-alone and grid-connected DERs, batch and loop mode, every plot-type string", "why_tests_cant": "unbounded trajectories and strings; most plot types are never requested by the tests and the plotted numbers are never examined", "anchors": ["pvder/simulation_utilities.py:SimulationResults.group_quantities_for_plotting", "pvder/simulation_utilities.py:SimulationResults.plot_DER_simulation", "pvder/simulation_utilities.py:SimulationResults.compare_with_external", "pvder/simulation_utilities.py:SimulationResults.change_units"]}
{"id": "C104", "title": "Instance names are unique", "statement": "Every DER, simulation, event schedule, results object and grid created in a process gets a name of the documented form (identifier, a dash, the class or its short name, an underscore and a number); the number counts the constructions of that class requested so far, failed ones included; and no two objects of a process ever have the same name, whatever identifiers the user chooses.", "quantifier": "every sequence of constructions of any classes, every identifier string (repeated, empty, containing dashes, underscores and digits), every pattern of failed constructions", "why_tests_cant": "the histories and strings are unbounded; a collision needs particular identifiers and counts", "anchors": ["pvder/utility_classes.py:Utilities.name_instance", "pvder/DER_components.py:SolarPVDER.setup_DER", "pvder/grid_components.py:Grid.__init__", "pvder/dynamic_simulation.py:DynamicSimulation.__init__", "pvder/simulation_events.py:SimulationEvents.__init__", "pvder/simulation_utilities.py:SimulationResults.__init__"]}
{"id": "C105", "title": "Ride-through enable flags", "statement": "While the low-voltage (high-voltage) ride-through enable flag is off, no evaluation sets or clears that side's trip or momentary-cessation flag or its timers; with all enable flags off the DER is never disconnected and its references are never touched; with only one side enabled, no voltage on the other side, however extreme and long, disconnects the DER. Switching a side off during momentary cessation does not end the cessation: the DER stays disconnected.", "quantifier": "every DER, every flag setting, every sequence of voltages, frequencies and times, every earlier history", "why_tests_cant": "histories are unbounded; the flags can be changed at any moment", "anchors": ["pvder/DER_features.py:update_ridethrough_flags", "pvder/DER_features.py:LVRT", "pvder/DER_features.py:HVRT", "pvder/DER_features.py:VRT_initialize", "pvder/DER_features.py:FRT_initialize"]}
{"id": "C106", "title": "Overfrequency trips", "statement": "A grid frequency that stays above a configured high-frequency threshold for longer than its clearing time trips the DER.", "quantifier": "every DER with frequency ride-through enabled, every frequency history", "why_tests_cant": "needs all histories; the configured high-frequency settings are accepted and displayed", "anchors": ["pvder/DER_features.py:FRT", "pvder/DER_features.py:check_HFRT_settings", "pvder/DER_features.py:FRT_initialize"]}
{"id": "C107", "title": "Event listing is complete and chronological", "statement": "show_events lists every scheduled solar, grid and load event, including the initial ones, exactly once, in non-decreasing order of time; the listing contains nothing else, and listing does not change the schedule.", "quantifier": "every SimulationEvents object reachable by any sequence of additions, removals and resets", "why_tests_cant": "schedules have unbounded length and arbitrary histories of edits; the order depends on all of them", "anchors": ["pvder/simulation_events.py:show_events", "pvder/simulation_events.py:simulation_events_list"]}
{"id": "C108", "title": "A DER can be switched to another parameter set", "statement": "modify_DER_parameters switches an existing DER to the parameter set of the given identifier, after which the DER behaves as one created with that set.", "quantifier": "every DER type, every identifier present in the parameter dictionaries", "why_tests_cant": "ranges over all types and parameter dictionaries, and over the whole class hierarchy in which a method is looked up", "anchors": ["pvder/DER_check_and_initialize.py:modify_DER_parameters", "pvder/DER_utilities.py:get_DER_id", "pvder/DER_components.py:get_DER_id"]}
{"id": "C109", "title": "Displayed parameters are the configured ones", "statement": "show_PV_DER_parameters with any documented type lists, for every created DER, each parameter of that group with the value given in the configuration; an undocumented type is rejected; nothing is changed by displaying.", "quantifier": "every DER type, every accepted configuration file, every display type", "why_tests_cant": "ranges over all configurations and the complete path from file to display", "anchors": ["pvder/DER_utilities.py:show_PV_DER_parameters", "pvder/DER_components.py:setup_DER"]}
{"id": "C110", "title": "Load changes take effect", "statement": "After a scheduled load event, and until the next one, the local load of the DER is the scheduled impedance: the load current is the scheduled one in every call of the right-hand side. With an externally supplied grid voltage the load is never connected.", "quantifier": "every DER type, every load schedule, every non-decreasing sequence of evaluation times", "why_tests_cant": "depends on the entire schedule and every evaluation time chosen by the solver", "anchors": ["pvder/DER_utilities.py:update_Zload1", "pvder/simulation_events.py:load_events"]}
{"id": "C111", "title": "Displayed states are the states", "statement": "show_PV_DER_states prints, for every DER and each documented quantity, the voltages, currents, powers and duty cycles of the DER, each under its own name, in physical units; an unknown quantity is rejected.", "quantifier": "every DER type, stand alone or not, every state", "why_tests_cant": "ranges over all states and types; the labels of the output are only right if they are right for unbalanced states too", "anchors": ["pvder/DER_utilities.py:show_PV_DER_states"]}
{"id": "C112", "title": "Debug output is harmless", "statement": "Switching on the debugging output of a simulation prints values and changes nothing else: every evaluation returns what it returns without it.", "quantifier": "every DER type, every combination of debug flags, stand alone or not, every state and time", "why_tests_cant": "every evaluation of every simulation is affected; ranges over all flag combinations and types", "anchors": ["pvder/dynamic_simulation.py:debug_simulation", "pvder/dynamic_simulation.py:ODE_model"]}
{"id": "C113", "title": "Optional per-phase and line-to-line results", "statement": "With DO_EXTRA_CALCULATIONS set, the per-phase PCC powers add up to the reported PCC power, the line-to-line RMS voltages are the peak of the instantaneous line-to-line voltage over the square root of two (so the square root of three times the phase RMS for balanced voltages), and no other result changes. Vabrms_calc works on every DER that has it.", "quantifier": "every set of phase voltages and currents, every DER type", "why_tests_cant": "ranges over all complex phasors; equality must be exact for unbalanced sets", "anchors": ["pvder/DER_components_three_phase.py:update_RMS", "pvder/DER_components_three_phase.py:update_power", "pvder/DER_components_three_phase.py:Vabrms_calc", "pvder/DER_components_single_phase.py:Vabrms_calc"]}
{"id": "C114", "title": "Frequency ride-through does not interfere with voltage ride-through", "statement": "Enabling frequency ride-through changes nothing in the voltage ride-through, disconnection and reconnection behaviour of the DER as long as the frequency logic has not tripped, that is as long as no sampled frequency history stays below a low-frequency threshold for longer than its limit; after such a trip the DER disconnects and keeps evaluating.", "quantifier": "every DER, every history of sampled voltages and frequencies of any length", "why_tests_cant": "unbounded histories; two logics that share one connection state", "anchors": ["pvder/DER_features.py:update_ridethrough_flags", "pvder/DER_features.py:FRT", "pvder/DER_features.py:LVRT", "pvder/DER_features.py:HVRT", "pvder/DER_features.py:disconnect_or_reconnect"]}
{"id": "C115", "title": "Frequency ride-through settings", "statement": "The frequency ride-through settings of a DER are accepted exactly when the second-level thresholds lie beyond the first-level ones (F_LF2>F_LF1 and F_HF2>F_HF1 as the code orders them), else construction fails with ValueError; the limits stay as configured unless the instantaneous-trip option is on, in which case every trip limit becomes one cycle of the grid, low-frequency and high-frequency alike.", "quantifier": "every settings record, every option value", "why_tests_cant": "quantifies over all settings; the option's effect is only visible in stored limits", "anchors": ["pvder/DER_features.py:check_RT_config", "pvder/DER_features.py:FRT_initialize", "pvder/DER_features.py:FRT_INSTANTANEOUS_TRIP"]}
{"id": "C116", "title": "Displayed ride-through settings", "statement": "show_RT_settings prints, for the kind of ride-through asked for (LVRT, HVRT, LFRT, HFRT), every configured level with that level's own threshold and limits, in per unit or in physical units as asked.", "quantifier": "every settings record, every kind, every value of PER_UNIT", "why_tests_cant": "quantifies over all settings and number of levels; tests capture one printout", "anchors": ["pvder/DER_features.py:show_RT_settings"]}
{"id": "C117", "title": "Jacobian self-check", "statement": "check_jacobian reports True exactly when every entry of the analytic Jacobian is within 0.01 of the partial derivative of the right-hand side, up to the truncation error of central differences, and prints exactly the entries that are off.", "quantifier": "every right-hand side with bounded third derivatives, every claimed Jacobian, every state", "why_tests_cant": "quantifies over all functions and states; a test runs it at one state", "anchors": ["pvder/DER_check_and_initialize.py:check_jacobian"]}
{"id": "C118", "title": "Overload rating", "statement": "The current requested from and carried by a DER never exceeds its rated current times the configured overload factor Ioverload: the rating bounds the current reference, and no operating point above it persists.", "quantifier": "every DER model, every state, every overload rating", "why_tests_cant": "quantifies over all states and ratings; an operating point above the rating is a property of the dynamics", "anchors": ["pvder/DER_check_and_initialize.py:initialize_inverter_ratings", "pvder/DER_components_single_phase.py:ODE_model", "pvder/DER_components_three_phase.py:ODE_model", "pvder/DER_utilities.py:ia_ref_calc"]}
{"id": "C119", "title": "Shipped configuration file", "statement": "Every DER entry of the configuration file shipped with the package (config_der.json, the one the README uses) is accepted by the wrapper with any correctly typed arguments and a grid (the numerical checks of ratings and circuit parameters that follow aside): the DER is of the type the entry names, attached to the given grid, and every parameter has the value of the caller's argument of that name, else the value written in the file.", "quantifier": "every DER entry of the shipped file, every set of keyword arguments", "why_tests_cant": "quantifies over all argument sets; the shipped data is exercised by tests for one call per entry at most", "anchors": ["config_der.json", "pvder/DER_wrapper.py:DERModel.__init__", "pvder/DER_components.py:setup_DER", "pvder/DER_check_and_initialize.py:update_DER_config"]}
{"id": "C120", "title": "Reading the log back", "statement": "get_logs returns every record written to the log file, in order, each with its columns as they were logged (error records with their decoded details), and with a filter exactly the records whose columns have the wanted values.", "quantifier": "every sequence of log records, every filter", "why_tests_cant": "quantifies over all messages and sequences of records, including messages containing the separator or line ends", "anchors": ["pvder/exceptionutil.py:get_logs", "pvder/exceptionutil.py:exception_handler", "pvder/DER_components.py:get_DER_config"]}
{"id": "C121", "title": "First-order time constant of a recorded response", "statement": "find_first_order_time_constant reports the time constant of a recorded first-order response, up to the sampling step: for a response that starts at the event and is recorded until it has settled, the reported value is the time constant to within one sample.", "quantifier": "every first-order response, every sampling", "why_tests_cant": "quantifies over all amplitudes, time constants and sampling grids", "anchors": ["pvder/utility_functions.py:find_first_order_time_constant"]}
{"id": "C122", "title": "Rejected solver steps", "statement": "Ride-through decisions (trip, momentary cessation, connection) depend only on the accepted solution: evaluations of the derivative or the Jacobian at trial points the solver later discards do not influence them.", "quantifier": "every sequence of accepted and discarded evaluations", "why_tests_cant": "the schedule of trial evaluations belongs to the solver; tests cannot enumerate it", "anchors": ["pvder/DER_features.py:update_ridethrough_flags", "pvder/DER_features.py:disconnect_or_reconnect", "pvder/DER_components_three_phase.py:ODE_model", "pvder/DER_components_three_phase.py:jac_ODE_model"]}
{"id": "C123", "title": "Fault current of the filter", "statement": "Along every solution of the model's equations the current of each phase never exceeds the largest voltage across the output filter divided by the filter resistance (plus what is left of its initial excess, which decays with the filter's time constant L/R); with no voltage across the filter it decays exactly exponentially, whatever the frequency.", "quantifier": "every configuration, every input trajectory, every solution", "why_tests_cant": "quantifies over all solutions of the differential equations and all inputs", "anchors": ["pvder/DER_components_single_phase.py:ODE_model", "pvder/DER_components_three_phase.py:ODE_model", "pvder/DER_components_three_phase_balanced.py:ODE_model"]}
{"id": "C124", "title": "Current-controller error signal", "statement": "Along every solution neither axis of the current controller's filtered error exceeds the largest tracking error of that axis seen so far or its starting value, with or without duty-cycle saturation.", "quantifier": "every configuration, every input trajectory, every solution", "why_tests_cant": "quantifies over all solutions of the differential equations and all inputs", "anchors": ["pvder/DER_components_single_phase.py:ODE_model", "pvder/DER_components_three_phase.py:ODE_model"]}
{"id": "C125", "title": "DC-link energy and ceiling", "statement": "The energy stored in the DC link changes exactly by the surplus of PV power over converted power, and while the inverter does not draw power from the grid the DC-link voltage never rises above the open-circuit voltage of the array.", "quantifier": "every configuration with a DC link, every input trajectory, every solution", "why_tests_cant": "quantifies over all solutions of the differential equations and all inputs", "anchors": ["pvder/DER_components_single_phase.py:ODE_model", "pvder/DER_utilities.py:Vdc_actual", "pvder/DER_components.py:Ppv_calc"]}
{"id": "C126", "title": "Co-simulation steps", "statement": "In co-simulation (loop mode) a step is accepted only when the terminal voltages of every phase the DER has, the initial state and the time interval are supplied; it is simulated and recorded with exactly these voltages; a refused call changes nothing.", "quantifier": "every DER model, every session of step calls and reads, every voltage", "why_tests_cant": "quantifies over all sessions and inputs", "anchors": ["pvder/dynamic_simulation.py:DynamicSimulation.run_simulation", "pvder/dynamic_simulation.py:DynamicSimulation.update_grid_measurements", "pvder/DER_utilities.py:va_calc"]}
{"id": "C127", "title": "Grid events of a simulation act on its DER", "statement": "The grid voltages and frequency a DER sees during a simulation are the ones scheduled in the events object of that simulation, and the recorded grid trajectories are the ones the DER was simulated with.", "quantifier": "every wiring of DER, Grid, events and simulation objects, every history of evaluations", "why_tests_cant": "quantifies over all object wirings and histories", "anchors": ["pvder/dynamic_simulation.py:DynamicSimulation.__init__", "pvder/dynamic_simulation.py:DynamicSimulation.ODE_model", "pvder/dynamic_simulation.py:DynamicSimulation.time_series_standalone_grid", "pvder/grid_components.py:steady_state_model", "pvder/DER_check_and_initialize.py:attach_grid_model"]}
{"id": "C128", "title": "Creating a simulation", "statement": "A simulation is created for every DER with an available solver, a grid when the DER is stand-alone, and the Jacobian wherever the DER model defines one; any other combination is refused with an explanatory exception and leaves nothing changed.", "quantifier": "every DER model and combination of arguments", "why_tests_cant": "quantifies over all combinations of arguments and prior histories", "anchors": ["pvder/dynamic_simulation.py:DynamicSimulation.__init__", "pvder/dynamic_simulation.py:DynamicSimulation.check_jac_availability"]}
{"id": "C129", "title": "The current controller reaches its reference", "statement": "While the duty cycle stays within its limit, the current of every phase approaches its reference exponentially from every state, at any frequency and with any passive grid; bounded deviations of the reference, the grid voltage and the DC voltage cause only a proportionally bounded error.", "quantifier": "every DER model, all positive gains with Ki_GCC < Kp_GCC*wp, every input trajectory, every solution", "why_tests_cant": "quantifies over all solutions of the differential equations, all inputs and all times", "anchors": ["pvder/DER_components_single_phase.py:ODE_model", "pvder/DER_components_three_phase.py:ODE_model", "pvder/DER_components_three_phase_balanced.py:ODE_model", "pvder/DER_utilities.py:va_calc"]}
{"id": "C130", "title": "Displayed phase angles", "statement": "Each stored phase-angle sample is the principal argument of the voltage phasor stored for the same instant; series exist for exactly the phases of the model and, on the grid side, in stand-alone simulations only. The plotted difference between PCC and grid angle is the angle between the two phasors.", "quantifier": "every voltage series, every DER type, stand-alone or not", "why_tests_cant": "all phasors, including those at the branch cut", "anchors": ["pvder/dynamic_simulation.py:time_series_phase_angle", "pvder/simulation_utilities.py:PlotUtilities"]}
{"id": "C131", "title": "A failed run does not disturb the next one", "statement": "After a simulation run the next run of the same simulation starts from the beginning of the event schedule: at every time of a forward run it reports what the schedule programmed by the user says.", "quantifier": "every schedule, every sequence of queries made by the previous run, whether it completed or failed", "why_tests_cant": "quantifies over all histories, including the point at which the previous run failed", "anchors": ["pvder/dynamic_simulation.py:run_simulation", "pvder/simulation_events.py:solar_events,grid_events,load_events,reset_event_counters"]}
{"id": "C132", "title": "The equations determine the run", "statement": "From every state the differential equations of a DER model have exactly one continuation: with the same inputs and the same initial state every run coincides with every other, and a run exists.", "quantifier": "every model type, parameters, inputs over time, initial state and length of run", "why_tests_cant": "quantifies over all solutions of the differential equations, not over the samples of one solver", "anchors": ["pvder/DER_components_single_phase.py:ODE_model", "pvder/DER_components_three_phase.py:ODE_model", "pvder/DER_utilities.py:we_calc,ma_calc,i_ref_calc"]}
{"id": "C133", "title": "Small changes of the initial state change the run little", "statement": "Take a run of a DER model that stays clear of its modulation and current limits (and keeps a positive DC voltage) while its inputs do not jump. From every initial state close enough to its own there is exactly one run over the same time, and at every instant it differs from the first by at most a constant times the difference of the initial states.", "quantifier": "every model type, parameters, inputs over time, run, nearby initial state and instant of the run", "why_tests_cant": "quantifies over all solutions of the differential equations from all nearby initial states", "anchors": ["pvder/DER_components_single_phase.py:ODE_model", "pvder/DER_components_three_phase.py:ODE_model", "pvder/DER_components_three_phase_balanced.py:ODE_model"]}
{"id": "C134", "title": "Grid events are converted with the time step of the simulation", "statement": "When a scheduled grid event becomes active, the grid frequency reported is 60 Hz plus the jump of the phase angle divided by 2 pi times the time step of the simulation that runs (or, if the angle is overridden, the phase angle advances by 2 pi times the change of frequency times that time step), and the event is refused only if that frequency or its voltage is out of limits. This holds for every history of creating simulations on the events object and assigning time steps.", "quantifier": "every event schedule, event, query time and history of simulations created and time steps assigned", "why_tests_cant": "ranges over all schedules and all histories of creations and assignments", "anchors": ["pvder/simulation_events.py:grid_events", "pvder/dynamic_simulation.py:DynamicSimulation.__init__"]}
{"id": "C135", "title": "Small changes of the inputs change the run little", "statement": "Take a run of a DER model that stays clear of its modulation and current limits (and keeps a positive DC voltage) while its inputs do not jump. If irradiance, network impedance, network voltage, reference values and electrical angle are changed by at most a small amount (again without jumps), there is exactly one run over the same time from every nearby initial state, and at every instant it differs from the first by at most a constant times the change.", "quantifier": "every model type, parameters, inputs over time, run, nearby inputs over time, nearby initial state and instant of the run", "why_tests_cant": "quantifies over all solutions of the differential equations for all nearby input histories", "anchors": ["pvder/DER_components_single_phase.py:ODE_model", "pvder/DER_components_three_phase.py:ODE_model", "pvder/DER_components.py:setup_DER", "pvder/DER_utilities.py:update_Ppv"]}
{"id": "C136", "title": "A run ends only at a limit", "statement": "With inputs that do not jump, no state of a DER model runs away in finite time: one bound holds for all states, at all instants, of all runs from an initial state that keep away from the modulation and current limits and keep a positive DC voltage. So from a state inside the limits the simulation goes on to the end of the interval unless a controller reaches its limit or the DC voltage collapses, and if no run from that state comes near a limit there is exactly one run over the whole interval.", "quantifier": "every model type, parameters, inputs over time, initial state inside the limits, interval length and margin", "why_tests_cant": "quantifies over all solutions of the differential equations and interval lengths; a test sees one trajectory of finite length", "anchors": ["pvder/DER_components_single_phase.py:ODE_model", "pvder/DER_components_three_phase.py:ODE_model", "pvder/DER_components.py:setup_DER"]}
{"id": "C137", "title": "It does not matter which phase is called a", "statement": "Renaming the phases of a three-phase DER in cyclic order (b becomes a, c becomes b, a becomes c), with all phasors expressed relative to the new phase a, gives the same simulation: DC voltage, controller integrators, frequency, total active and reactive power and (filtered) RMS voltage are the same at every instant, and current, voltage, duty cycle and power of each phase are those of the phase it was called before.", "quantifier": "both three-phase models (with and without DC link), parameters, unbalanced voltages or grid sources, set points, connection state, and runs over every interval", "why_tests_cant": "relates two whole trajectories for arbitrary unbalanced inputs; a test compares two finite runs", "anchors": ["pvder/DER_components_three_phase.py:ODE_model", "pvder/DER_components_three_phase.py:update_inverter_frequency", "pvder/DER_utilities.py:ib_ref_calc", "pvder/DER_utilities.py:ic_ref_calc", "pvder/utility_functions.py:abc_to_dq0"]}
{"id": "C138", "title": "The start time of a simulation does not matter", "statement": "With a constant grid frequency, a simulation that starts at another time, from the same initial state and with all inputs and events moved by the same time, produces the same trajectories, only moved.", "quantifier": "every model type, parameters, inputs over time, run, interval and start time", "why_tests_cant": "compares whole trajectories for every start time and all inputs; a test compares two finite runs", "anchors": ["pvder/DER_components_single_phase.py:update_inverter_frequency", "pvder/DER_components_three_phase.py:update_inverter_frequency", "pvder/utility_functions.py:phasor_to_time", "pvder/dynamic_simulation.py:t_calc"]}
{"id": "C139", "title": "No energy from nothing", "statement": "Over any interval of a simulation the energy a DER delivers at its connection point is at most the energy its PV array gave plus the decrease of the energy stored in filter and DC link (exactly: minus the heat in the filter). A DER that is disconnected, or in the dark, never delivers more than it had stored, and the mean delivered power never exceeds the limit of the array by more than the stored energy over the elapsed time.", "quantifier": "every model type with a DC link, parameters, inputs over time, run and interval length", "why_tests_cant": "an inequality about the integral over arbitrarily long runs with arbitrary inputs", "anchors": ["pvder/DER_components_single_phase.py:ODE_model", "pvder/DER_components_three_phase.py:ODE_model", "pvder/DER_components.py:PVModule.Ppv_calc", "pvder/DER_utilities.py:Vdc_actual"]}
{"id": "C140", "title": "Voltage change caused by a DER", "statement": "In stand-alone mode the voltage at the connection point differs from the voltage without the DER by exactly the source impedance (line and grid, seen through the transformer, in parallel with the load) times the DER current. Hence the squared voltage rises by 4(R P + X Q) minus (|Z||i|) squared: a DER that delivers neither active nor reactive power does not raise the voltage, absorbing reactive power behind an inductive source lowers it, the power a DER can take is limited by the open-circuit voltage and the impedance, and more load lowers both open-circuit voltage and impedance. With a voltage imposed by an external program the DER has no influence.", "quantifier": "every model type, parameters, grid, load and current", "why_tests_cant": "continuum of impedances, voltages and currents", "anchors": ["pvder/DER_utilities.py:va_calc,vb_calc,vc_calc", "pvder/DER_components_single_phase.py:S_PCC_calc", "pvder/DER_components_three_phase.py:S_PCC_calc"]}
{"id": "C141", "title": "A DER has one operating point", "statement": "Under constant inputs a connected DER that is within its limits can stand still in one way only: two states in which nothing changes but the PLL angle have the same currents, controller states, DC voltage and delivered power (and, with equal PLL frequency, the same modulation).", "quantifier": "every model type, parameters with non-zero gains, grid, set points and pair of states", "why_tests_cant": "pairs of states from a continuum; the equations are quadratic in the current", "anchors": ["pvder/DER_components_single_phase.py:ODE_model", "pvder/DER_components_three_phase.py:ODE_model", "pvder/DER_utilities.py:ia_ref_calc,ib_ref_calc,ic_ref_calc", "pvder/DER_check_and_initialize.py:steady_state_calc"]}
{"id": "C142", "title": "Which set points can be met", "statement": "A connected DER can stand still only if the network can transfer the power asked for: with w the open-circuit voltage, Z the loop impedance (source impedance plus filter resistance) and c the power per phase, 2|Z||c| <= |w|^2 + 2 Re(conj(Z) c). Conversely, for every such set point there is a state at rest that meets it, with the PLL at grid frequency; it is within the DER's limits whenever its current and modulation are.", "quantifier": "every model type, parameters, grid, weather and set points", "why_tests_cant": "existence and non-existence of states over a continuum", "anchors": ["pvder/DER_components_single_phase.py:ODE_model", "pvder/DER_components_three_phase.py:ODE_model", "pvder/DER_utilities.py:ia_ref_calc,ib_ref_calc,ic_ref_calc", "pvder/DER_check_and_initialize.py:steady_state_calc"]}
