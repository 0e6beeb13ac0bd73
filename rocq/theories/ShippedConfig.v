(** The configuration file shipped with the package, /repo/config_der.json, entry by
    entry (decimal numbers exactly as written). *)
From Verif Require Import Base ConfigValues ConfigData ConfigModel.
Open Scope string_scope.
Definition config_der : cfgfile :=
  [
   ("50",
     [("parent_config", VStr "");
      ("basic_specs", VDict [("model_type", VStr "SolarPVDERThreePhase")]);
      ("basic_options", VDict [("Sinsol", VFloat (100)); ("current_gradient_limiter", VBool false)]);
      ("module_parameters", VDict [("Np", VInt 11); ("Ns", VInt 735); ("Vdcmpp0", VFloat (550)); ("Vdcmpp_min", VFloat (525)); ("Vdcmpp_max", VFloat (650))]);
      ("inverter_ratings", VDict [("Srated", VFloat (50000)); ("Vdcrated", VFloat (550)); ("Ioverload", VFloat (13#10)); ("Vrmsrated", VFloat (177)); ("Iramp_max_gradient_real", VFloat (1)); ("Iramp_max_gradient_imag", VFloat (1))]);
      ("circuit_parameters", VDict [("Rf_actual", VFloat (1#500)); ("Lf_actual", VFloat (1#40000)); ("C_actual", VFloat (3#10000)); ("R1_actual", VFloat (19#10000)); ("X1_actual", VFloat (561#10000))]);
      ("controller_gains", VDict [("Kp_GCC", VFloat (6000)); ("Ki_GCC", VFloat (2000)); ("Kp_DC", VFloat (-2)); ("Ki_DC", VFloat (-10)); ("Kp_Q", VFloat (1#5)); ("Ki_Q", VFloat (10)); ("wp", VFloat (200000))]);
      ("steadystate_values", VDict [("maR0", VFloat (89#100)); ("maI0", VFloat (0)); ("iaR0", VFloat (1)); ("iaI0", VFloat (1#1000))]);
      ("initial_states", VDict [("iaR", VInt 0); ("iaI", VFloat (0)); ("xaR", VFloat (0)); ("xaI", VFloat (0)); ("uaR", VFloat (0)); ("uaI", VFloat (0)); ("xDC", VFloat (0)); ("xQ", VFloat (0)); ("xPLL", VFloat (0)); ("wte", VFloat (157#25))]);
      ("verbosity", VStr "INFO");
      ("LVRT", VDict [("config_id", VStr "LVRT_1547cat3")]);
      ("VRT_delays", VDict [("config_id", VStr "VRT_delay_cat3")])]);
   ("50_numba",
     [("parent_config", VStr "50");
      ("basic_specs", VDict [("model_type", VStr "SolarPVDERThreePhaseNumba")])]);
   ("50_type1",
     [("parent_config", VStr "50");
      ("inverter_ratings", VDict [("Ioverload", VFloat (11#10))])]);
   ("LVRT_1547cat3",
     [("config", VDict [("1", VDict [("V_threshold", VFloat (22#25)); ("t_threshold", VFloat (5)); ("t_min_ridethrough", VInt 20); ("mode", VStr "momentary_cessation"); ("t_start", VFloat (0)); ("threshold_breach", VBool false)]); ("2", VDict [("V_threshold", VFloat (7#10)); ("t_threshold", VFloat (7#2)); ("t_min_ridethrough", VFloat (5#2)); ("mode", VStr "momentary_cessation"); ("t_start", VFloat (0)); ("threshold_breach", VBool false)]); ("3", VDict [("V_threshold", VFloat (1#2)); ("t_threshold", VFloat (1#4)); ("t_min_ridethrough", VInt 1); ("mode", VStr "momentary_cessation"); ("t_start", VFloat (0)); ("threshold_breach", VBool false)])])]);
   ("VRT_delay_cat3",
     [("config", VDict [("output_cessation_delay", VFloat (1#100)); ("output_restore_delay", VFloat (1#10)); ("restore_Vdc", VBool false)])]);
   ("250",
     [("parent_config", VStr "");
      ("basic_specs", VDict [("model_type", VStr "SolarPVDERThreePhase")]);
      ("basic_options", VDict [("Sinsol", VFloat (100)); ("current_gradient_limiter", VBool true)]);
      ("module_parameters", VDict [("Np", VInt 45); ("Ns", VInt 1000); ("Vdcmpp0", VFloat (750)); ("Vdcmpp_min", VFloat (750)); ("Vdcmpp_max", VFloat (1000))]);
      ("inverter_ratings", VDict [("Srated", VFloat (250000)); ("Vdcrated", VFloat (750)); ("Ioverload", VFloat (13#10)); ("Vrmsrated", VFloat (230)); ("Iramp_max_gradient_real", VFloat (3#2)); ("Iramp_max_gradient_imag", VFloat (1))]);
      ("circuit_parameters", VDict [("Rf_actual", VFloat (1#500)); ("Lf_actual", VFloat (3#10000)); ("C_actual", VFloat (3#10000)); ("R1_actual", VFloat (19#10000)); ("X1_actual", VFloat (561#10000))]);
      ("controller_gains", VDict [("Kp_GCC", VFloat (6000)); ("Ki_GCC", VFloat (2000)); ("Kp_DC", VFloat (-2)); ("Ki_DC", VFloat (-10)); ("Kp_Q", VFloat (1#5)); ("Ki_Q", VFloat (10)); ("wp", VFloat (200000))]);
      ("steadystate_values", VDict [("maR0", VFloat (89#100)); ("maI0", VFloat (0)); ("iaR0", VFloat (1)); ("iaI0", VFloat (1#1000))]);
      ("initial_states", VDict [("iaR", VInt 0); ("iaI", VFloat (0)); ("xaR", VFloat (0)); ("xaI", VFloat (0)); ("uaR", VFloat (0)); ("uaI", VFloat (0)); ("xDC", VFloat (0)); ("xQ", VFloat (0)); ("xPLL", VFloat (0)); ("wte", VFloat (157#25))]);
      ("verbosity", VStr "WARNING");
      ("LVRT", VDict [("config_id", VStr "LVRT_1547cat3")])]);
   ("250_numba",
     [("parent_config", VStr "250");
      ("basic_specs", VDict [("model_type", VStr "SolarPVDERThreePhaseNumba")])]);
   ("10",
     [("parent_config", VStr "");
      ("basic_specs", VDict [("model_type", VStr "SolarPVDERSinglePhase")]);
      ("basic_options", VDict [("Sinsol", VFloat (100)); ("current_gradient_limiter", VBool true)]);
      ("module_parameters", VDict [("Np", VInt 2); ("Ns", VInt 1000); ("Vdcmpp0", VFloat (750)); ("Vdcmpp_min", VFloat (650)); ("Vdcmpp_max", VFloat (800))]);
      ("inverter_ratings", VDict [("Srated", VFloat (10000)); ("Vdcrated", VFloat (550)); ("Ioverload", VFloat (13#10)); ("Vrmsrated", VFloat (177)); ("Iramp_max_gradient_real", VFloat (1)); ("Iramp_max_gradient_imag", VFloat (1))]);
      ("circuit_parameters", VDict [("Rf_actual", VFloat (1#500)); ("Lf_actual", VFloat (1#40000)); ("C_actual", VFloat (3#100000)); ("R1_actual", VFloat (19#10000)); ("X1_actual", VFloat (561#10000))]);
      ("controller_gains", VDict [("Kp_GCC", VFloat (12000)); ("Ki_GCC", VFloat (4000)); ("Kp_DC", VFloat (-4)); ("Ki_DC", VFloat (-20)); ("Kp_Q", VFloat (2#5)); ("Ki_Q", VFloat (20)); ("wp", VFloat (200000))]);
      ("steadystate_values", VDict [("maR0", VFloat (7#10)); ("maI0", VFloat (0)); ("iaR0", VFloat (1#2)); ("iaI0", VFloat (1#100))]);
      ("initial_states", VDict [("iaR", VInt 0); ("iaI", VFloat (0)); ("xaR", VFloat (0)); ("xaI", VFloat (0)); ("uaR", VFloat (0)); ("uaI", VFloat (0)); ("xDC", VFloat (0)); ("xQ", VFloat (0)); ("xPLL", VFloat (0)); ("wte", VFloat (157#25))])]);
   ("50_balanced",
     [("parent_config", VStr "");
      ("basic_specs", VDict [("model_type", VStr "SolarPVDERThreePhaseBalanced")]);
      ("basic_options", VDict [("Sinsol", VFloat (100)); ("current_gradient_limiter", VBool false)]);
      ("module_parameters", VDict [("Np", VInt 11); ("Ns", VInt 735); ("Vdcmpp0", VFloat (550)); ("Vdcmpp_min", VFloat (525)); ("Vdcmpp_max", VFloat (650))]);
      ("inverter_ratings", VDict [("Srated", VFloat (50000)); ("Vdcrated", VFloat (550)); ("Ioverload", VFloat (13#10)); ("Vrmsrated", VFloat (177)); ("Iramp_max_gradient_real", VFloat (9#10)); ("Iramp_max_gradient_imag", VFloat (9#10))]);
      ("circuit_parameters", VDict [("Rf_actual", VFloat (1#500)); ("Lf_actual", VFloat (1#40000)); ("C_actual", VFloat (3#10000)); ("R1_actual", VFloat (19#10000)); ("X1_actual", VFloat (561#10000))]);
      ("controller_gains", VDict [("Kp_GCC", VFloat (6000)); ("Ki_GCC", VFloat (2000)); ("Kp_DC", VFloat (-2)); ("Ki_DC", VFloat (-10)); ("Kp_Q", VFloat (1#5)); ("Ki_Q", VFloat (10)); ("wp", VFloat (200000))]);
      ("steadystate_values", VDict [("maR0", VFloat (89#100)); ("maI0", VFloat (0)); ("iaR0", VFloat (1)); ("iaI0", VFloat (1#1000))]);
      ("initial_states", VDict [("iaR", VInt 0); ("iaI", VFloat (0)); ("xaR", VFloat (0)); ("xaI", VFloat (0)); ("uaR", VFloat (0)); ("uaI", VFloat (0)); ("xDC", VFloat (0)); ("xQ", VFloat (0)); ("xPLL", VFloat (0)); ("wte", VFloat (157#25))]);
      ("verbosity", VStr "INFO");
      ("LVRT", VDict [("config_id", VStr "LVRT_1547cat3")])]);
   ("10_constantVdc",
     [("parent_config", VStr "");
      ("basic_specs", VDict [("model_type", VStr "SolarPVDERSinglePhaseConstantVdc")]);
      ("basic_options", VDict [("Sinsol", VFloat (100)); ("current_gradient_limiter", VBool true)]);
      ("module_parameters", VDict [("Np", VInt 2); ("Ns", VInt 1000); ("Vdcmpp0", VFloat (750)); ("Vdcmpp_min", VFloat (650)); ("Vdcmpp_max", VFloat (800))]);
      ("inverter_ratings", VDict [("Srated", VFloat (10000)); ("Vdcrated", VFloat (550)); ("Ioverload", VFloat (13#10)); ("Vrmsrated", VFloat (177)); ("Iramp_max_gradient_real", VFloat (1)); ("Iramp_max_gradient_imag", VFloat (1))]);
      ("circuit_parameters", VDict [("Rf_actual", VFloat (1#500)); ("Lf_actual", VFloat (1#40000)); ("C_actual", VFloat (3#100000)); ("R1_actual", VFloat (19#10000)); ("X1_actual", VFloat (561#10000))]);
      ("controller_gains", VDict [("Kp_GCC", VFloat (12000)); ("Ki_GCC", VFloat (4000)); ("Kp_P", VFloat (1#10)); ("Ki_P", VFloat (40)); ("Kp_Q", VFloat (1#25)); ("Ki_Q", VFloat (2)); ("wp", VFloat (200000))]);
      ("steadystate_values", VDict [("maR0", VFloat (7#10)); ("maI0", VFloat (0)); ("iaR0", VFloat (1#2)); ("iaI0", VFloat (1#100))]);
      ("initial_states", VDict [("iaR", VInt 0); ("iaI", VFloat (0)); ("xaR", VFloat (0)); ("xaI", VFloat (0)); ("uaR", VFloat (0)); ("uaI", VFloat (0)); ("xDC", VFloat (0)); ("xQ", VFloat (0)); ("xPLL", VFloat (0)); ("wte", VFloat (157#25))])]);
   ("50_constantVdc",
     [("parent_config", VStr "");
      ("basic_specs", VDict [("model_type", VStr "SolarPVDERThreePhaseConstantVdc")]);
      ("basic_options", VDict [("Sinsol", VFloat (100)); ("current_gradient_limiter", VBool false)]);
      ("module_parameters", VDict [("Np", VInt 11); ("Ns", VInt 735); ("Vdcmpp0", VFloat (550)); ("Vdcmpp_min", VFloat (525)); ("Vdcmpp_max", VFloat (650))]);
      ("inverter_ratings", VDict [("Srated", VFloat (50000)); ("Vdcrated", VFloat (550)); ("Ioverload", VFloat (13#10)); ("Vrmsrated", VFloat (177)); ("Iramp_max_gradient_real", VFloat (1)); ("Iramp_max_gradient_imag", VFloat (1))]);
      ("circuit_parameters", VDict [("Rf_actual", VFloat (1#500)); ("Lf_actual", VFloat (1#40000)); ("R1_actual", VFloat (19#10000)); ("X1_actual", VFloat (561#10000))]);
      ("controller_gains", VDict [("Kp_GCC", VFloat (6000)); ("Ki_GCC", VFloat (2000)); ("Kp_P", VFloat (1#10)); ("Ki_P", VFloat (2)); ("Kp_Q", VFloat (1#5)); ("Ki_Q", VFloat (10)); ("wp", VFloat (200000))]);
      ("steadystate_values", VDict [("maR0", VFloat (89#100)); ("maI0", VFloat (0)); ("iaR0", VFloat (1)); ("iaI0", VFloat (1#1000))]);
      ("initial_states", VDict [("iaR", VInt 0); ("iaI", VFloat (0)); ("xaR", VFloat (0)); ("xaI", VFloat (0)); ("uaR", VFloat (0)); ("uaI", VFloat (0)); ("ibR", VInt 0); ("ibI", VFloat (0)); ("xbR", VFloat (0)); ("xbI", VFloat (0)); ("ubR", VFloat (0)); ("ubI", VFloat (0)); ("icR", VInt 0); ("icI", VFloat (0)); ("xcR", VFloat (0)); ("xcI", VFloat (0)); ("ucR", VFloat (0)); ("ucI", VFloat (0)); ("xP", VFloat (0)); ("xQ", VFloat (0)); ("xPLL", VFloat (0)); ("wte", VFloat (157#25))]);
      ("verbosity", VStr "INFO")]);
   ("1",
     [("parent_config", VStr "");
      ("basic_specs", VDict [("model_type", VStr "SolarPVDERSinglePhase")]);
      ("basic_options", VDict [("Sinsol", VFloat (100))]);
      ("module_parameters", VDict [("Np", VInt 2); ("Ns", VInt 1000); ("Vdcmpp0", VFloat (750)); ("Vdcmpp_min", VFloat (650)); ("Vdcmpp_max", VFloat (800))]);
      ("inverter_ratings", VDict [("Srated", VFloat (10000)); ("Vdcrated", VFloat (550)); ("Ioverload", VFloat (13#10)); ("Vrmsrated", VFloat (177))]);
      ("circuit_parameters", VDict [("Rf_actual", VFloat (1#100)); ("Lf_actual", VFloat (3#1000)); ("C_actual", VFloat (3#10000)); ("R1_actual", VFloat (19#10000)); ("X1_actual", VFloat (561#10000))]);
      ("controller_gains", VDict [("Kp_GCC", VFloat (12000)); ("Ki_GCC", VFloat (4000)); ("Kp_DC", VFloat (-4)); ("Ki_DC", VFloat (-20)); ("Kp_Q", VFloat (2#5)); ("Ki_Q", VFloat (20)); ("wp", VFloat (200000))]);
      ("steadystate_values", VDict [("maR0", VFloat (7#10)); ("maI0", VFloat (0)); ("iaR0", VFloat (1#2)); ("iaI0", VFloat (1#100))]);
      ("initial_states", VDict [("iaR", VInt 0); ("iaI", VFloat (0)); ("xaR", VFloat (0)); ("xaI", VFloat (0)); ("uaR", VFloat (0)); ("uaI", VFloat (0)); ("xDC", VFloat (0)); ("xQ", VFloat (0)); ("xPLL", VFloat (0)); ("wte", VFloat (157#25))])])
  ].
