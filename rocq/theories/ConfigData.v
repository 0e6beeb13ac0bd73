(** The data tables of the configuration layer, transcribed literally from
    /repo/pvder/templates.py (lines 13-187), /repo/pvder/properties.py (lines
    15-95) and /repo/pvder/specifications.py (lines 19-46).  Decimal literals are
    the rational numbers they denote (the nearest double is not modelled). *)
From Verif Require Import Base ConfigValues.
Open Scope string_scope.

(** templates.py:16-30 *)
Definition tmpl_SinglePhase : dict :=
  [("parent_config", VStr "");
   ("basic_specs", VDict [("phases", VStr "a");
   ("n_phases", VInt 1);
   ("n_ODE", VInt 11);
   ("model_type", VStr "SolarPVDERSinglePhase")]);
   ("basic_options", VDict [("t_stable", VFloat (1#2));
   ("m_steady_state", VFloat (24#25));
   ("Sinsol", VFloat (100#1));
   ("current_gradient_limiter", VBool false);
   ("Vrms_measurement_type", VStr "minimum")]);
   ("module_parameters", VDict [("Np", VInt 2);
   ("Ns", VInt 1000);
   ("Vdcmpp0", VFloat (750#1));
   ("Vdcmpp_min", VFloat (650#1));
   ("Vdcmpp_max", VFloat (800#1))]);
   ("inverter_ratings", VDict [("Srated", VFloat (10000#1));
   ("Vdcrated", VFloat (550#1));
   ("Ioverload", VFloat (13#10));
   ("Vrmsrated", VFloat (177#1));
   ("Iramp_max_gradient_real", VFloat (1#1));
   ("Iramp_max_gradient_imag", VFloat (1#1))]);
   ("circuit_parameters", VDict [("Rf_actual", VFloat (1#500));
   ("Lf_actual", VFloat (1#40000));
   ("C_actual", VFloat (3#100000));
   ("R1_actual", VFloat (19#10000));
   ("X1_actual", VFloat (561#10000))]);
   ("controller_gains", VDict [("Kp_GCC", VFloat (12000#1));
   ("Ki_GCC", VFloat (4000#1));
   ("Kp_DC", VFloat ((-4)#1));
   ("Ki_DC", VFloat ((-20)#1));
   ("Kp_Q", VFloat (2#5));
   ("Ki_Q", VFloat (20#1));
   ("wp", VFloat (200000#1))]);
   ("steadystate_values", VDict [("maR0", VFloat (7#10));
   ("maI0", VFloat (0#1));
   ("iaR0", VFloat (1#2));
   ("iaI0", VFloat (1#100))]);
   ("initial_states", VDict [("iaR", VInt 0);
   ("iaI", VFloat (0#1));
   ("xaR", VFloat (0#1));
   ("xaI", VFloat (0#1));
   ("uaR", VFloat (0#1));
   ("uaI", VFloat (0#1));
   ("Vdc", VFloat (550#1));
   ("xDC", VFloat (0#1));
   ("xQ", VFloat (0#1));
   ("xPLL", VFloat (0#1));
   ("wte", VFloat (157#25))])].
(** templates.py:32-44 *)
Definition tmpl_SinglePhaseConstantVdc : dict :=
  [("parent_config", VStr "");
   ("basic_specs", VDict [("phases", VStr "a");
   ("n_phases", VInt 1);
   ("n_ODE", VInt 10);
   ("model_type", VStr "SolarPVDERSinglePhaseConstantVdc")]);
   ("basic_options", VDict [("t_stable", VFloat (1#2));
   ("m_steady_state", VFloat (24#25));
   ("Sinsol", VFloat (100#1));
   ("use_Pref", VBool false);
   ("current_gradient_limiter", VBool false);
   ("Vrms_measurement_type", VStr "minimum")]);
   ("module_parameters", VDict [("Np", VInt 2);
   ("Ns", VInt 1000);
   ("Vdcmpp0", VFloat (750#1));
   ("Vdcmpp_min", VFloat (650#1));
   ("Vdcmpp_max", VFloat (800#1))]);
   ("inverter_ratings", VDict [("Srated", VFloat (10000#1));
   ("Vdcrated", VFloat (550#1));
   ("Ioverload", VFloat (13#10));
   ("Vrmsrated", VFloat (177#1));
   ("Iramp_max_gradient_real", VFloat (1#1));
   ("Iramp_max_gradient_imag", VFloat (1#1))]);
   ("circuit_parameters", VDict [("Rf_actual", VFloat (1#500));
   ("Lf_actual", VFloat (1#40000));
   ("R1_actual", VFloat (19#10000));
   ("X1_actual", VFloat (561#10000))]);
   ("controller_gains", VDict [("Kp_GCC", VFloat (12000#1));
   ("Ki_GCC", VFloat (4000#1));
   ("Kp_P", VFloat (5000#1));
   ("Ki_P", VFloat (500#1));
   ("Kp_Q", VFloat (2#5));
   ("Ki_Q", VFloat (20#1));
   ("wp", VFloat (200000#1))]);
   ("steadystate_values", VDict [("maR0", VFloat (7#10));
   ("maI0", VFloat (0#1));
   ("iaR0", VFloat (1#2));
   ("iaI0", VFloat (1#100))]);
   ("initial_states", VDict [("iaR", VInt 0);
   ("iaI", VFloat (0#1));
   ("xaR", VFloat (0#1));
   ("xaI", VFloat (0#1));
   ("uaR", VFloat (0#1));
   ("uaI", VFloat (0#1));
   ("xP", VFloat (0#1));
   ("xQ", VFloat (0#1));
   ("xPLL", VFloat (0#1));
   ("wte", VFloat (157#25))])].
(** templates.py:46-60 *)
Definition tmpl_ThreePhase : dict :=
  [("parent_config", VStr "");
   ("basic_specs", VDict [("phases", VTuple [VStr "a"; VStr "b"; VStr "c"]);
   ("n_phases", VInt 3);
   ("n_ODE", VInt 24);
   ("unbalanced", VBool true);
   ("model_type", VStr "SolarPVDERThreePhase")]);
   ("basic_options", VDict [("t_stable", VFloat (1#2));
   ("m_steady_state", VFloat (24#25));
   ("Sinsol", VFloat (100#1));
   ("current_gradient_limiter", VBool false);
   ("Vrms_measurement_type", VStr "filtered")]);
   ("module_parameters", VDict [("Np", VInt 11);
   ("Ns", VInt 735);
   ("Vdcmpp0", VFloat (550#1));
   ("Vdcmpp_min", VFloat (525#1));
   ("Vdcmpp_max", VFloat (650#1))]);
   ("inverter_ratings", VDict [("Srated", VFloat (50000#1));
   ("Vdcrated", VFloat (550#1));
   ("Ioverload", VFloat (13#10));
   ("Vrmsrated", VFloat (177#1));
   ("Iramp_max_gradient_real", VFloat (1#1));
   ("Iramp_max_gradient_imag", VFloat (1#1))]);
   ("circuit_parameters", VDict [("Rf_actual", VFloat (1#500));
   ("Lf_actual", VFloat (1#40000));
   ("C_actual", VFloat (3#10000));
   ("R1_actual", VFloat (19#10000));
   ("X1_actual", VFloat (561#10000))]);
   ("controller_gains", VDict [("Kp_GCC", VFloat (6000#1));
   ("Ki_GCC", VFloat (2000#1));
   ("Kp_DC", VFloat ((-2)#1));
   ("Ki_DC", VFloat ((-10)#1));
   ("Kp_Q", VFloat (1#5));
   ("Ki_Q", VFloat (10#1));
   ("wp", VFloat (200000#1));
   ("Tfilter_Vrms", VFloat (1#10))]);
   ("steadystate_values", VDict [("maR0", VFloat (89#100));
   ("maI0", VFloat (0#1));
   ("iaR0", VFloat (1#1));
   ("iaI0", VFloat (1#1000))]);
   ("initial_states", VDict [("iaR", VInt 0);
   ("iaI", VFloat (0#1));
   ("xaR", VFloat (0#1));
   ("xaI", VFloat (0#1));
   ("uaR", VFloat (0#1));
   ("uaI", VFloat (0#1));
   ("ibR", VInt 0);
   ("ibI", VFloat (0#1));
   ("xbR", VFloat (0#1));
   ("xbI", VFloat (0#1));
   ("ubR", VFloat (0#1));
   ("ubI", VFloat (0#1));
   ("icR", VInt 0);
   ("icI", VFloat (0#1));
   ("xcR", VFloat (0#1));
   ("xcI", VFloat (0#1));
   ("ucR", VFloat (0#1));
   ("ucI", VFloat (0#1));
   ("Vdc", VFloat (550#1));
   ("xDC", VFloat (0#1));
   ("xQ", VFloat (0#1));
   ("xPLL", VFloat (0#1));
   ("wte", VFloat (157#25))])].
(** templates.py:62-75 *)
Definition tmpl_ThreePhaseNoVrmsFilter : dict :=
  [("parent_config", VStr "");
   ("basic_specs", VDict [("phases", VTuple [VStr "a"; VStr "b"; VStr "c"]);
   ("n_phases", VInt 3);
   ("n_ODE", VInt 23);
   ("unbalanced", VBool true);
   ("model_type", VStr "SolarPVDERThreePhaseNoVrmsFilter")]);
   ("basic_options", VDict [("t_stable", VFloat (1#2));
   ("m_steady_state", VFloat (24#25));
   ("Sinsol", VFloat (100#1));
   ("current_gradient_limiter", VBool false);
   ("Vrms_measurement_type", VStr "minimum")]);
   ("module_parameters", VDict [("Np", VInt 11);
   ("Ns", VInt 735);
   ("Vdcmpp0", VFloat (550#1));
   ("Vdcmpp_min", VFloat (525#1));
   ("Vdcmpp_max", VFloat (650#1))]);
   ("inverter_ratings", VDict [("Srated", VFloat (50000#1));
   ("Vdcrated", VFloat (550#1));
   ("Ioverload", VFloat (13#10));
   ("Vrmsrated", VFloat (177#1));
   ("Iramp_max_gradient_real", VFloat (1#1));
   ("Iramp_max_gradient_imag", VFloat (1#1))]);
   ("circuit_parameters", VDict [("Rf_actual", VFloat (1#500));
   ("Lf_actual", VFloat (1#40000));
   ("C_actual", VFloat (3#10000));
   ("R1_actual", VFloat (19#10000));
   ("X1_actual", VFloat (561#10000))]);
   ("controller_gains", VDict [("Kp_GCC", VFloat (6000#1));
   ("Ki_GCC", VFloat (2000#1));
   ("Kp_DC", VFloat ((-2)#1));
   ("Ki_DC", VFloat ((-10)#1));
   ("Kp_Q", VFloat (1#5));
   ("Ki_Q", VFloat (10#1));
   ("wp", VFloat (200000#1))]);
   ("steadystate_values", VDict [("maR0", VFloat (89#100));
   ("maI0", VFloat (0#1));
   ("iaR0", VFloat (1#1));
   ("iaI0", VFloat (1#1000))]);
   ("initial_states", VDict [("iaR", VInt 0);
   ("iaI", VFloat (0#1));
   ("xaR", VFloat (0#1));
   ("xaI", VFloat (0#1));
   ("uaR", VFloat (0#1));
   ("uaI", VFloat (0#1));
   ("ibR", VInt 0);
   ("ibI", VFloat (0#1));
   ("xbR", VFloat (0#1));
   ("xbI", VFloat (0#1));
   ("ubR", VFloat (0#1));
   ("ubI", VFloat (0#1));
   ("icR", VInt 0);
   ("icI", VFloat (0#1));
   ("xcR", VFloat (0#1));
   ("xcI", VFloat (0#1));
   ("ucR", VFloat (0#1));
   ("ucI", VFloat (0#1));
   ("Vdc", VFloat (550#1));
   ("xDC", VFloat (0#1));
   ("xQ", VFloat (0#1));
   ("xPLL", VFloat (0#1));
   ("wte", VFloat (157#25))])].
(** templates.py:77-91 *)
Definition tmpl_ThreePhaseNumba : dict :=
  [("parent_config", VStr "");
   ("basic_specs", VDict [("phases", VTuple [VStr "a"; VStr "b"; VStr "c"]);
   ("n_phases", VInt 3);
   ("n_ODE", VInt 23);
   ("unbalanced", VBool true);
   ("model_type", VStr "SolarPVDERThreePhaseNumba")]);
   ("basic_options", VDict [("t_stable", VFloat (1#2));
   ("m_steady_state", VFloat (24#25));
   ("Sinsol", VFloat (100#1));
   ("current_gradient_limiter", VBool false);
   ("Vrms_measurement_type", VStr "minimum")]);
   ("module_parameters", VDict [("Np", VInt 11);
   ("Ns", VInt 735);
   ("Vdcmpp0", VFloat (550#1));
   ("Vdcmpp_min", VFloat (525#1));
   ("Vdcmpp_max", VFloat (650#1))]);
   ("inverter_ratings", VDict [("Srated", VFloat (50000#1));
   ("Vdcrated", VFloat (550#1));
   ("Ioverload", VFloat (13#10));
   ("Vrmsrated", VFloat (177#1));
   ("Iramp_max_gradient_real", VFloat (1#1));
   ("Iramp_max_gradient_imag", VFloat (1#1))]);
   ("circuit_parameters", VDict [("Rf_actual", VFloat (1#500));
   ("Lf_actual", VFloat (1#40000));
   ("C_actual", VFloat (3#10000));
   ("R1_actual", VFloat (19#10000));
   ("X1_actual", VFloat (561#10000))]);
   ("controller_gains", VDict [("Kp_GCC", VFloat (6000#1));
   ("Ki_GCC", VFloat (2000#1));
   ("Kp_DC", VFloat ((-2)#1));
   ("Ki_DC", VFloat ((-10)#1));
   ("Kp_Q", VFloat (1#5));
   ("Ki_Q", VFloat (10#1));
   ("wp", VFloat (200000#1))]);
   ("steadystate_values", VDict [("maR0", VFloat (89#100));
   ("maI0", VFloat (0#1));
   ("iaR0", VFloat (1#1));
   ("iaI0", VFloat (1#1000))]);
   ("initial_states", VDict [("iaR", VInt 0);
   ("iaI", VFloat (0#1));
   ("xaR", VFloat (0#1));
   ("xaI", VFloat (0#1));
   ("uaR", VFloat (0#1));
   ("uaI", VFloat (0#1));
   ("ibR", VInt 0);
   ("ibI", VFloat (0#1));
   ("xbR", VFloat (0#1));
   ("xbI", VFloat (0#1));
   ("ubR", VFloat (0#1));
   ("ubI", VFloat (0#1));
   ("icR", VInt 0);
   ("icI", VFloat (0#1));
   ("xcR", VFloat (0#1));
   ("xcI", VFloat (0#1));
   ("ucR", VFloat (0#1));
   ("ucI", VFloat (0#1));
   ("Vdc", VFloat (550#1));
   ("xDC", VFloat (0#1));
   ("xQ", VFloat (0#1));
   ("xPLL", VFloat (0#1));
   ("wte", VFloat (157#25))])].
(** templates.py:94-107 *)
Definition tmpl_ThreePhaseBalanced : dict :=
  [("parent_config", VStr "");
   ("basic_specs", VDict [("phases", VTuple [VStr "a"; VStr "b"; VStr "c"]);
   ("n_phases", VInt 3);
   ("n_ODE", VInt 11);
   ("unbalanced", VBool false);
   ("model_type", VStr "SolarPVDERThreePhaseBalanced")]);
   ("basic_options", VDict [("t_stable", VFloat (1#2));
   ("m_steady_state", VFloat (24#25));
   ("Sinsol", VFloat (100#1));
   ("current_gradient_limiter", VBool false);
   ("Vrms_measurement_type", VStr "minimum")]);
   ("module_parameters", VDict [("Np", VInt 11);
   ("Ns", VInt 735);
   ("Vdcmpp0", VFloat (550#1));
   ("Vdcmpp_min", VFloat (525#1));
   ("Vdcmpp_max", VFloat (650#1))]);
   ("inverter_ratings", VDict [("Srated", VFloat (50000#1));
   ("Vdcrated", VFloat (550#1));
   ("Ioverload", VFloat (13#10));
   ("Vrmsrated", VFloat (177#1));
   ("Iramp_max_gradient_real", VFloat (1#1));
   ("Iramp_max_gradient_imag", VFloat (1#1))]);
   ("circuit_parameters", VDict [("Rf_actual", VFloat (1#500));
   ("Lf_actual", VFloat (1#40000));
   ("C_actual", VFloat (3#10000));
   ("R1_actual", VFloat (19#10000));
   ("X1_actual", VFloat (561#10000))]);
   ("controller_gains", VDict [("Kp_GCC", VFloat (6000#1));
   ("Ki_GCC", VFloat (2000#1));
   ("Kp_DC", VFloat ((-2)#1));
   ("Ki_DC", VFloat ((-10)#1));
   ("Kp_Q", VFloat (1#5));
   ("Ki_Q", VFloat (10#1));
   ("wp", VFloat (200000#1))]);
   ("steadystate_values", VDict [("maR0", VFloat (89#100));
   ("maI0", VFloat (0#1));
   ("iaR0", VFloat (1#1));
   ("iaI0", VFloat (1#1000))]);
   ("initial_states", VDict [("iaR", VInt 0);
   ("iaI", VFloat (0#1));
   ("xaR", VFloat (0#1));
   ("xaI", VFloat (0#1));
   ("uaR", VFloat (0#1));
   ("uaI", VFloat (0#1));
   ("Vdc", VFloat (550#1));
   ("xDC", VFloat (0#1));
   ("xQ", VFloat (0#1));
   ("xPLL", VFloat (0#1));
   ("wte", VFloat (157#25))])].
(** templates.py:109-123 *)
Definition tmpl_ThreePhaseConstantVdc : dict :=
  [("parent_config", VStr "");
   ("basic_specs", VDict [("phases", VTuple [VStr "a"; VStr "b"; VStr "c"]);
   ("n_phases", VInt 3);
   ("n_ODE", VInt 22);
   ("unbalanced", VBool true);
   ("model_type", VStr "SolarPVDERThreePhaseConstantVdc")]);
   ("basic_options", VDict [("t_stable", VFloat (1#2));
   ("m_steady_state", VFloat (24#25));
   ("Sinsol", VFloat (100#1));
   ("current_gradient_limiter", VBool false);
   ("Vrms_measurement_type", VStr "minimum")]);
   ("module_parameters", VDict [("Np", VInt 11);
   ("Ns", VInt 735);
   ("Vdcmpp0", VFloat (550#1));
   ("Vdcmpp_min", VFloat (525#1));
   ("Vdcmpp_max", VFloat (650#1))]);
   ("inverter_ratings", VDict [("Srated", VFloat (50000#1));
   ("Vdcrated", VFloat (550#1));
   ("Ioverload", VFloat (13#10));
   ("Vrmsrated", VFloat (177#1));
   ("Iramp_max_gradient_real", VFloat (1#1));
   ("Iramp_max_gradient_imag", VFloat (1#1))]);
   ("circuit_parameters", VDict [("Rf_actual", VFloat (1#500));
   ("Lf_actual", VFloat (1#40000));
   ("R1_actual", VFloat (19#10000));
   ("X1_actual", VFloat (561#10000))]);
   ("controller_gains", VDict [("Kp_GCC", VFloat (6000#1));
   ("Ki_GCC", VFloat (2000#1));
   ("Kp_P", VFloat (500#1));
   ("Ki_P", VFloat (50#1));
   ("Kp_Q", VFloat (1#5));
   ("Ki_Q", VFloat (10#1));
   ("wp", VFloat (200000#1))]);
   ("steadystate_values", VDict [("maR0", VFloat (89#100));
   ("maI0", VFloat (0#1));
   ("iaR0", VFloat (1#1));
   ("iaI0", VFloat (1#1000))]);
   ("initial_states", VDict [("iaR", VInt 0);
   ("iaI", VFloat (0#1));
   ("xaR", VFloat (0#1));
   ("xaI", VFloat (0#1));
   ("uaR", VFloat (0#1));
   ("uaI", VFloat (0#1));
   ("ibR", VInt 0);
   ("ibI", VFloat (0#1));
   ("xbR", VFloat (0#1));
   ("xbI", VFloat (0#1));
   ("ubR", VFloat (0#1));
   ("ubI", VFloat (0#1));
   ("icR", VInt 0);
   ("icI", VFloat (0#1));
   ("xcR", VFloat (0#1));
   ("xcI", VFloat (0#1));
   ("ucR", VFloat (0#1));
   ("ucI", VFloat (0#1));
   ("xP", VFloat (0#1));
   ("xQ", VFloat (0#1));
   ("xPLL", VFloat (0#1));
   ("wte", VFloat (157#25))])].
(** templates.py:16-124 *)
Definition DER_design_template : list (string * dict) :=
  [("SolarPVDERSinglePhase", tmpl_SinglePhase);
   ("SolarPVDERSinglePhaseConstantVdc", tmpl_SinglePhaseConstantVdc);
   ("SolarPVDERThreePhase", tmpl_ThreePhase);
   ("SolarPVDERThreePhaseNoVrmsFilter", tmpl_ThreePhaseNoVrmsFilter);
   ("SolarPVDERThreePhaseNumba", tmpl_ThreePhaseNumba);
   ("SolarPVDERThreePhaseBalanced", tmpl_ThreePhaseBalanced);
   ("SolarPVDERThreePhaseConstantVdc", tmpl_ThreePhaseConstantVdc)].
(** templates.py:127-167 *)
Definition VRT_config_template : dict :=
  [("LVRT", VDict [("config_id", VStr "");
   ("config", VDict [("1", VDict [("V_threshold", VFloat (22#25));
   ("t_threshold", VFloat (5#1));
   ("t_min_ridethrough", VInt 2);
   ("mode", VStr "mandatory_operation");
   ("t_start", VFloat (0#1));
   ("threshold_breach", VBool false)]);
   ("2", VDict [("V_threshold", VFloat (7#10));
   ("t_threshold", VFloat (7#2));
   ("t_min_ridethrough", VInt 1);
   ("mode", VStr "mandatory_operation");
   ("t_start", VFloat (0#1));
   ("threshold_breach", VBool false)]);
   ("3", VDict [("V_threshold", VFloat (1#2));
   ("t_threshold", VFloat (1#1));
   ("t_min_ridethrough", VFloat (1#2));
   ("mode", VStr "momentary_cessation");
   ("t_start", VFloat (0#1));
   ("threshold_breach", VBool false)])])]);
   ("HVRT", VDict [("config_id", VStr "");
   ("config", VDict [("1", VDict [("V_threshold", VFloat (53#50));
   ("t_threshold", VFloat (1#1));
   ("t_min_ridethrough", VFloat (1#2));
   ("mode", VStr "mandatory_operation");
   ("t_start", VFloat (0#1));
   ("threshold_breach", VBool false)]);
   ("2", VDict [("V_threshold", VFloat (28#25));
   ("t_threshold", VFloat (1#2));
   ("t_min_ridethrough", VFloat (1#2));
   ("mode", VStr "mandatory_operation");
   ("t_start", VFloat (0#1));
   ("threshold_breach", VBool false)])])]);
   ("VRT_delays", VDict [("config_id", VStr "");
   ("config", VDict [("output_cessation_delay", VFloat (1#100));
   ("output_restore_delay", VFloat (7#4));
   ("restore_Vdc", VBool false)])])].
(** templates.py:169-187 *)
Definition FRT_config_template : dict :=
  [("LFRT", VDict [("parent_config", VStr "");
   ("config", VDict [("1", VDict [("F_LF", VFloat (57#1));
   ("t_LF_limit", VFloat (1#60));
   ("t_LFstart", VFloat (0#1))]);
   ("2", VDict [("F_LF", VFloat (294#5));
   ("t_LF_limit", VFloat (299#1));
   ("t_LFstart", VFloat (0#1))])])]);
   ("HFRT", VDict [("parent_config", VStr "");
   ("config", VDict [("1", VDict [("F_HF", VFloat (306#5));
   ("t_HF_limit", VFloat (299#1));
   ("t_HFstart", VFloat (0#1))]);
   ("2", VDict [("F_HF", VFloat (62#1));
   ("t_HF_limit", VFloat (1#60));
   ("t_HFstart", VFloat (0#1))])])]);
   ("FRT_delays", VDict [("parent_config", VStr "");
   ("config", VDict [("FRT_INSTANTANEOUS_TRIP", VBool false)])])].
(** properties.py:15-98; only the type entries are used by the code *)
Definition parameter_properties : list (string * list ty) :=
  [("Rf", [TInt; TFloat]);
   ("Lf", [TInt; TFloat]);
   ("C", [TInt; TFloat]);
   ("R1", [TInt; TFloat]);
   ("X1", [TInt; TFloat]);
   ("Zf", [TComplex]);
   ("Rf_actual", [TInt; TFloat]);
   ("Lf_actual", [TInt; TFloat]);
   ("C_actual", [TInt; TFloat]);
   ("R1_actual", [TInt; TFloat]);
   ("X1_actual", [TInt; TFloat]);
   ("Np", [TInt; TFloat]);
   ("Ns", [TInt; TFloat]);
   ("Vdcmpp0", [TInt; TFloat]);
   ("Vdcmpp_min", [TInt; TFloat]);
   ("Vdcmpp_max", [TInt; TFloat]);
   ("Srated", [TInt; TFloat]);
   ("Vdcrated", [TInt; TFloat]);
   ("Ioverload", [TInt; TFloat]);
   ("Vrmsrated", [TInt; TFloat]);
   ("Iramp_max_gradient_real", [TInt; TFloat]);
   ("Iramp_max_gradient_imag", [TInt; TFloat]);
   ("Kp_GCC", [TInt; TFloat]);
   ("Ki_GCC", [TInt; TFloat]);
   ("Kp_DC", [TInt; TFloat]);
   ("Ki_DC", [TInt; TFloat]);
   ("Kp_P", [TInt; TFloat]);
   ("Ki_P", [TInt; TFloat]);
   ("Kp_Q", [TInt; TFloat]);
   ("Ki_Q", [TInt; TFloat]);
   ("wp", [TInt; TFloat]);
   ("Tfilter_Vrms", [TInt; TFloat]);
   ("maR0", [TInt; TFloat]);
   ("maI0", [TInt; TFloat]);
   ("iaR0", [TInt; TFloat]);
   ("iaI0", [TInt; TFloat]);
   ("iaR", [TInt; TFloat]);
   ("iaI", [TInt; TFloat]);
   ("ibR", [TInt; TFloat]);
   ("ibI", [TInt; TFloat]);
   ("icR", [TInt; TFloat]);
   ("icI", [TInt; TFloat]);
   ("xaR", [TInt; TFloat]);
   ("xaI", [TInt; TFloat]);
   ("xbR", [TInt; TFloat]);
   ("xbI", [TInt; TFloat]);
   ("xcR", [TInt; TFloat]);
   ("xcI", [TInt; TFloat]);
   ("uaR", [TInt; TFloat]);
   ("uaI", [TInt; TFloat]);
   ("ubR", [TInt; TFloat]);
   ("ubI", [TInt; TFloat]);
   ("ucR", [TInt; TFloat]);
   ("ucI", [TInt; TFloat]);
   ("Vdc", [TInt; TFloat]);
   ("xDC", [TInt; TFloat]);
   ("xP", [TInt; TFloat]);
   ("xQ", [TInt; TFloat]);
   ("xPLL", [TInt; TFloat]);
   ("wte", [TInt; TFloat]);
   ("n_phases", [TInt]);
   ("n_ODE", [TInt]);
   ("model_type", [TStr]);
   ("phases", [TTuple]);
   ("unbalanced", [TBool]);
   ("t_stable", [TInt; TFloat]);
   ("m_steady_state", [TFloat]);
   ("Sinsol", [TInt; TFloat]);
   ("use_Pref", [TBool]);
   ("current_gradient_limiter", [TBool]);
   ("Vrms_measurement_type", [TStr])].
(** specifications.py:19-41: name, (default value, accepted types) *)
Definition DER_argument_spec : list (string * (pv * list ty)) :=
  [("derId", (VNone, [TStr]));
   ("Srated", (VNone, [TInt; TFloat]));
   ("powerRating", (VNone, [TInt; TFloat]));
   ("Vrmsrated", (VNone, [TInt; TFloat]));
   ("VrmsRating", (VNone, [TInt; TFloat]));
   ("Vdcrated", (VNone, [TInt; TFloat]));
   ("gridModel", (VNone, [TGrid]));
   ("verbosity", (VStr "INFO", [TStr; TInt]));
   ("identifier", (VStr "", [TStr]));
   ("derConfig", (VDict [], [TDict]));
   ("gridVoltagePhaseA", (VNone, [TComplex]));
   ("gridVoltagePhaseB", (VNone, [TComplex]));
   ("gridVoltagePhaseC", (VNone, [TComplex]));
   ("gridFrequency", (VNone, [TInt; TFloat]));
   ("standAlone", (VBool true, [TBool]));
   ("steadyStateInitialization", (VBool true, [TBool]));
   ("allowUnbalancedM", (VBool false, [TBool]));
   ("ia0", (VNone, [TComplex]));
   ("xa0", (VNone, [TComplex]));
   ("ua0", (VNone, [TComplex]));
   ("xDC0", (VNone, [TFloat]));
   ("xP0", (VNone, [TFloat]));
   ("xQ0", (VNone, [TFloat]))].
(** specifications.py:46 *)
Definition logging_levels_dict : list (string * Z) :=
  [("DEBUG", 10%Z); ("INFO", 20%Z); ("WARNING", 30%Z); ("ERROR", 40%Z); ("CRITICAL", 50%Z)].
(** templates.py:8 *)
Definition single_phase_models : list string := ["SolarPVDERSinglePhase"; "SolarPVDERSinglePhaseConstantVdc"].
(** templates.py:9 *)
Definition three_phase_models : list string := ["SolarPVDERThreePhase"; "SolarPVDERThreePhaseNoVrmsFilter"; "SolarPVDERThreePhaseConstantVdc"; "SolarPVDERThreePhaseBalanced"; "SolarPVDERThreePhaseNumba"].
