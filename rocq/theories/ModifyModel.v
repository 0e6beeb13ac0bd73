(** Model of attribute lookup on DER objects and of modify_DER_parameters
    (/repo/pvder/DER_check_and_initialize.py:157-174). *)
From Coq Require Import String.
From Verif Require Import Base.
Open Scope string_scope.

(** The classes of the package a DER object is built from: name, bases, names
    defined in the class body (methods and properties), with file and line. *)
Record cls := Cls { c_name : string; c_bases : list string; c_defs : list string }.
Definition classes : list cls := [
  (* DER_check_and_initialize.py:18 *)
  Cls "PVDER_SetupUtilities" ["BaseValues"] ["creation_message"; "update_DER_config"; "update_DER_parameter"; "check_DER_config"; "check_config_file";
    "modify_DER_parameters"; "initialize_basic_specs"; "initialize_basic_options"; "initialize_grid_measurements"; "initialize_states";
    "initialize_derived_quantities"; "initialize_DER_model"; "initialize_inverter_ratings"; "initialize_Sinverter"; "initialize_Vdc";
    "initialize_Vac"; "initialize_Iac"; "initialize_circuit_parameters"; "initialize_controller_gains"; "initialize_jacobian"; "attach_grid_model";
    "check_voltage"; "check_circuit_parameters"; "power_error_calc"; "steady_state_calc"; "check_jacobian"];
  (* DER_components.py:28 *)
  Cls "SolarPVDER" ["PVDER_SetupUtilities"; "PVDER_SmartFeatures"; "PVDER_ModelUtilities"; "BaseValues"] ["setup_DER"; "create_DER_config";
    "get_DER_parent_id"; "get_DER_parent_config"; "get_DER_config"; "update_DER_config_specs"; "get_completed_DER_config"; "read_config";
    "create_template"; "get_DER_arguments"; "initialize_DER"; "initialize_flags"; "check_model_type"; "check_basic_specs"];
  (* DER_components.py:288 *)
  Cls "PVModule" [] ["__init__"; "Vdcmpp"; "Iph_calc"; "Ppv_calc"; "fit_MPP_poly"; "initialize_module_parameters"];
  (* DER_components_single_phase.py:22 *)
  Cls "SolarPVDERSinglePhase" ["PVModule"; "SolarPVDER"] ["__init__"; "y0"; "S_calc"; "S_PCC_calc"; "S_load1_calc"; "S_G_calc"; "Vtrms_calc";
    "Vrms_calc"; "Irms_calc"; "Vabrms_calc"; "update_inverter_states"; "update_voltages"; "update_RMS"; "update_power"; "update_iref";
    "update_inverter_frequency"; "ODE_model"; "jac_ODE_model"];
  (* DER_components_single_phase_constant_Vdc.py:20 *)
  Cls "SolarPVDERSinglePhaseConstantVdc" ["PVModule"; "SolarPVDER"] ["__init__"; "y0"; "S_calc"; "S_PCC_calc"; "S_load1_calc"; "S_G_calc";
    "Vtrms_calc"; "Vrms_calc"; "Irms_calc"; "Vabrms_calc"; "update_inverter_states"; "update_voltages"; "update_RMS"; "update_power"; "update_Pref";
    "update_iref"; "update_inverter_frequency"; "ODE_model"; "jac_ODE_model"];
  (* DER_components_three_phase.py:22 *)
  Cls "SolarPVDERThreePhase" ["PVModule"; "SolarPVDER"] ["__init__"; "y0"; "S_calc"; "S_PCC_calc"; "S_load1_calc"; "S_G_calc"; "Vtrms_calc";
    "Vrms_calc"; "Vrms_min_calc"; "Irms_calc"; "Vtabrms_calc"; "Vabrms_calc"; "update_inverter_states"; "update_voltages"; "update_RMS";
    "update_power"; "update_iref"; "update_inverter_frequency"; "ODE_model"; "jac_ODE_model"];
  (* DER_components_three_phase_balanced.py:22 *)
  Cls "SolarPVDERThreePhaseBalanced" ["PVModule"; "SolarPVDER"] ["__init__"; "y0"; "S_calc"; "S_PCC_calc"; "S_load1_calc"; "S_G_calc"; "Vtrms_calc";
    "Vrms_calc"; "Irms_calc"; "Vtabrms_calc"; "Vabrms_calc"; "update_inverter_states"; "update_voltages"; "update_RMS"; "update_power"; "update_iref";
    "update_inverter_frequency"; "ODE_model"; "jac_ODE_model"];
  (* DER_components_three_phase_constant_Vdc.py:19 *)
  Cls "SolarPVDERThreePhaseConstantVdc" ["PVModule"; "SolarPVDER"] ["__init__"; "y0"; "S_calc"; "S_PCC_calc"; "S_load1_calc"; "S_G_calc";
    "Vtrms_calc"; "Vrms_calc"; "Vrms_min_calc"; "Irms_calc"; "Vtabrms_calc"; "Vabrms_calc"; "update_inverter_states"; "update_voltages"; "update_RMS";
    "update_power"; "update_Pref"; "update_iref"; "update_inverter_frequency"; "ODE_model"; "jac_ODE_model"];
  (* DER_components_three_phase_no_Vrms_filter.py:22 *)
  Cls "SolarPVDERThreePhaseNoVrmsFilter" ["PVModule"; "SolarPVDER"] ["__init__"; "y0"; "S_calc"; "S_PCC_calc"; "S_load1_calc"; "S_G_calc";
    "Vtrms_calc"; "Vrms_calc"; "Vrms_min_calc"; "Irms_calc"; "Vtabrms_calc"; "Vabrms_calc"; "update_inverter_states"; "update_voltages"; "update_RMS";
    "update_power"; "update_iref"; "update_inverter_frequency"; "ODE_model"; "jac_ODE_model"];
  (* DER_components_three_phase_numba.py:250 *)
  Cls "SolarPVDERThreePhaseNumba" ["PVModule"; "SolarPVDER"] ["__init__"; "y0"; "update_Ppv"; "update_voltages"; "update_RMS"; "update_power";
    "update_iref"; "update_inverter_frequency"; "ODE_model"; "jac_ODE_model"];
  (* DER_features.py:14 *)
  Cls "PVDER_SmartFeatures" [] ["initialize_Volt_VAR"; "Volt_VAR_logic"; "Qlimit_calc"; "Volt_VAR_inject_range"; "Volt_VAR_absorb_range";
    "Q_Volt_VAR_inject"; "Q_Volt_VAR_absorb"; "update_ridethrough_flags"; "disconnect_or_reconnect"; "DER_disconnect_logic"; "DER_disconnect";
    "DER_reconnect_logic"; "RT_initialize"; "VRT_initialize"; "LVRT"; "HVRT"; "get_Vrms_measured"; "show_RT_flags"; "check_VRT_settings";
    "print_VRT_events"; "print_reconnect_events"; "check_anomaly"; "update_RT_config"; "check_RT_config"; "show_RT_settings"; "FRT_initialize";
    "check_LFRT_settings"; "check_HFRT_settings"; "FRT"; "FRT_INSTANTANEOUS_TRIP"; "print_LFRT_events"; "print_event"];
  (* DER_utilities.py:19 *)
  Cls "PVDER_ModelUtilities" ["BaseValues"; "Utilities"] ["Vdc_actual"; "ma"; "mb"; "mc"; "ia_ref_calc"; "ia_ref_activepower_control"; "ib_ref_calc";
    "ib_ref_activepower_control"; "ic_ref_calc"; "ic_ref_activepower_control"; "iphload1_calc"; "vta_calc"; "vtb_calc"; "vtc_calc"; "va_calc";
    "vb_calc"; "vc_calc"; "wgrid_calc"; "wgrid_estimate"; "wgrid_estimate_calc"; "we_calc"; "update_Ppv"; "update_Qref"; "update_Vdc_ref";
    "update_Zload1"; "S_PCCph_calc"; "get_ramp_limited_iref"; "get_iref_actual"; "show_PV_DER_states"; "show_PV_DER_parameters"; "validate_model";
    "set_Vdc_ref"; "MPP_table"; "add_Vdc_ref"; "get_Vdc_ref"; "Vdc_ref_ramp"; "show_references"; "reset_reference_counters"; "create_parameter_dict";
    "get_default_parameter_ID"; "initialize_parameter_dict"; "update_parameter_dict"; "show_parameter_dictionaries"; "show_parameter_types";
    "get_parameter_dictionary"; "save_parameter_dictionary"; "load_parameter_dictionary"];
  (* DER_wrapper.py:20 *)
  Cls "DERModel" ["SolarPVDER"] ["__init__"; "get_config"; "get_DER_id"; "create_DER_model"];
  (* grid_components.py:10 *)
  Cls "BaseValues" [] [];
  (* utility_classes.py:17 *)
  Cls "Utilities" [] ["name_instance"; "initialize_logger"]].

Definition find_class (n : string) : option cls := find (fun c => String.eqb n (c_name c)) classes.
(** n and all its ancestors (the order of Python's method resolution does not
    matter for whether a name is found); the hierarchy is less than 6 deep *)
Fixpoint ancestors (fuel : nat) (n : string) : list string :=
  match fuel with
  | O => []
  | S f => n :: match find_class n with Some c => flat_map (ancestors f) (c_bases c) | None => [] end
  end.
(** type(self).<name> is found in a class body of the hierarchy.  Names assigned
    to instances are not considered: no statement of the package assigns
    get_DER_id or initialize_module_parameters to an instance. *)
Definition defined_for (n name : string) : bool :=
  existsb (fun k => match find_class k with Some c => existsb (String.eqb name) (c_defs c) | None => false end) (ancestors 6 n).

(** modify_DER_parameters, DER_check_and_initialize.py:157-174, on an object of
    class [n] with state [d]: line 163 calls self.get_DER_id and assigns
    self.parameter_ID ([set_id]), line 164 calls
    self.initialize_module_parameters; [rest] is everything from line 164 on. *)
Definition modify_DER_parameters {D} (n : string) (set_id : D -> string -> D) (rest : D -> D * res unit) (d : D) (pid : string)
  : D * res unit :=
  if negb (defined_for n "get_DER_id") then (d, Raise AttributeError)
  else let d1 := set_id d pid in
       if negb (defined_for n "initialize_module_parameters") then (d1, Raise AttributeError) else rest d1.
