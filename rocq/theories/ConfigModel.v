(** Model of the configuration layer: how the constructor of a DER combines the
    JSON configuration file, the keyword arguments and the templates.
    Exceptions are values; LogUtil.exception_handler re-raises. *)
From Verif Require Import Base ConfigValues ConfigData.
Open Scope string_scope.

(** A configuration file: DER_components.py:154-161 (read_config) and
    utility_functions.py:333-348 (read_json) return the parsed JSON object.
    Reading it is not modelled; the parsed object is the parameter [file].
    Every call reads the file again, so no two calls share dictionaries. *)
Definition cfgfile := list (string * dict).

(** DER_components.py:109-121, get_DER_config: logs an error when the ID is
    missing, then [config_dict[derId]] raises KeyError.
    Simplification: every entry of the file is a JSON object. *)
Definition get_DER_config (file : cfgfile) (derId : string) : res dict := dsub derId file.

(** DER_components.py:84-95, get_DER_parent_id *)
Definition get_DER_parent_id (DER_config : dict) : pv :=
  match dget "parent_config" DER_config with Some p => p | None => VStr "" end.

(** DER_components.py:97-107, get_DER_parent_config.  [has_name] says whether the
    object already has an attribute [name]: the log message formatted at line 101
    reads it, and Python evaluates it even when logging is off.  A truthy ID that
    is not a string is in no JSON object (KeyError). *)
Definition get_DER_parent_config (has_name : bool) (file : cfgfile) (pid : pv) : res dict :=
  if truthy pid
  then if has_name
       then match pid with VStr s => get_DER_config file s | _ => Raise KeyError end
       else Raise AttributeError
  else Ok [].

(** DER_components.py:142-152, get_completed_DER_config (one dictionary) *)
Definition complete_with (t cfg : dict) : dict :=
  fold_left (fun c kv => if dmem (fst kv) c then c else dset (fst kv) (VDict []) c) t cfg.

(** DER_components.py:126, spec_config flattened in iteration order *)
Definition spec_config : list (string * string) :=
  [("basic_specs", "model_type"); ("inverter_ratings", "Srated"); ("inverter_ratings", "Vrmsrated")].

(** [cond1 and cond2] with the lookups of line 129/131 *)
Definition has_spec (cfg : dict) (st sp : string) : res bool :=
  match dget st cfg with None => Ok false | Some c => pmem sp c end.

(** DER_components.py:123-140, update_DER_config_specs: one iteration *)
Definition update_spec (parent : dict) (cfg : dict) (s : string * string) : res dict :=
  let (st, sp) := s in
  do own <- has_spec cfg st sp;
  if own then Ok cfg
  else
    do inh <- has_spec parent st sp;
    if inh then
      do pc <- dsub st parent;
      do v <- pget sp pc;
      match dget st cfg with
      | Some (VDict c) => Ok (dset st (VDict (dset sp v c)) cfg)
      | Some _ => Raise AttributeError   (* only dictionaries have .update *)
      | None => Ok (dset st (VDict [(sp, v)]) cfg)
      end
    else Raise ValueError.
Definition update_DER_config_specs (cfg parent : dict) : res dict :=
  foldR (update_spec parent) cfg spec_config.

(** DER_components.py:163-169, create_template: the template of the model type *)
Definition create_template (model : string) : res dict := dsub model DER_design_template.

(** DER_components.py:70-82, create_DER_config.  [self.name] is only set later, by
    name_instance (utility_classes.py:21-37, called at DER_components.py:55), and
    no class of the hierarchy defines it, so [has_name] is [false] here. *)
Definition create_DER_config (model : string) (file : cfgfile) (derId : string) : res (dict * dict) :=
  do t <- create_template model;
  do cfg <- get_DER_config file derId;
  do parent <- get_DER_parent_config false file (get_DER_parent_id cfg);
  let cfg1 := complete_with t cfg in
  let parent1 := complete_with t parent in
  do cfg2 <- update_DER_config_specs cfg1 parent1;
  Ok (cfg2, parent1).

(** DER_components.py:171-207, get_DER_arguments: one entry of DER_argument_spec *)
Definition resolve_argument (cfg kwargs : dict) (acc : dict) (s : string * (pv * list ty)) : dict :=
  let '(key, (default, types)) := s in
  match dget key kwargs with
  | Some v => if isinstance v types then dset key v acc else acc
  | None =>
      match dget key cfg with
      | Some v => if isinstance v types then dset key v acc else acc
      | None => match default with VNone => acc | v => dset key v acc end
      end
  end.
Definition get_DER_arguments (cfg kwargs : dict) : dict :=
  fold_left (resolve_argument cfg kwargs) DER_argument_spec [].

(** DER_check_and_initialize.py:83-128, update_DER_parameter: the value stored in
    self.DER_config[component][parameter] *)
Definition checked (types : list ty) (v : pv) : res pv :=
  if isinstance v types then Ok v else Raise ValueError.
Definition update_DER_parameter (t cfg parent args : dict) (component parameter : string) : res pv :=
  match dget parameter parameter_properties with
  | None => Raise AssertionError
  | Some types =>
      match dget parameter args with
      | Some v => checked types v
      | None =>
          do c <- dsub component cfg;
          do own <- pmem parameter c;
          if own then do v <- pget parameter c; checked types v
          else
            do p <- dsub component parent;
            do inh <- pmem parameter p;
            if inh then do v <- pget parameter p; checked types v
            else
              do tc <- dsub component t;
              do dflt <- pmem parameter tc;
              if dflt then pget parameter tc else Raise ValueError
      end
  end.

(** the parameters a component of the template iterates over (the component
    "parent_config" is the empty string) *)
Definition params_of (c : pv) : list string :=
  match c with VDict d => map fst d | _ => [] end.

(** DER_check_and_initialize.py:131-147, check_DER_config *)
Definition check_DER_config (t cfg : dict) : res unit :=
  if forallb (fun kv => dmem (fst kv) cfg) t then Ok tt
  else do p <- dsub "parent_config" cfg;
       if truthy p then Ok tt else Raise KeyError.

(** DER_check_and_initialize.py:47-52: one component of the template.  The
    component dictionary self.DER_config[component] starts as {}. *)
Definition update_component (t cfg parent args : dict) (out : dict) (comp : string * pv) : res dict :=
  let (name, c) := comp in
  match dget name args with
  | Some v => Ok (dset name v out)
  | None =>
      do d <- foldR (fun acc p => do v <- update_DER_parameter t cfg parent args name p; Ok (dset p v acc))
                    [] (params_of c);
      Ok (dset name (VDict d) out)
  end.

(** DER_check_and_initialize.py:54-70: ride-through settings *)
Definition RT_components : dict := (VRT_config_template ++ FRT_config_template)%list.
Definition update_RT_component (cfg parent args : dict) (out : dict) (rt : string * pv) : dict :=
  let (name, default_RT) := rt in
  match dget name args with
  | Some v => dset name v out
  | None => match dget name cfg with
            | Some v => dset name v out
            | None => match dget name parent with
                      | Some v => dset name v out
                      | None => dset name default_RT out
                      end
            end
  end.

(** R1 + 1j*X1 on numbers (TypeError otherwise) *)
Definition num (v : pv) : res Q :=
  match v with
  | VInt z => Ok (inject_Z z)
  | VFloat q => Ok q
  | VBool b => Ok (if b then 1 else 0)
  | _ => Raise TypeError
  end.
Definition complex_of (r x : pv) : res pv :=
  do a <- num r; do b <- num x; Ok (VComplex a b).

(** DER_check_and_initialize.py:38-81, update_DER_config.  The five parameter
    dictionaries of lines 72-79 alias entries of the result, so Z1_actual is added
    to the component "circuit_parameters" itself.  Simplification: on an exception
    the partly filled dictionary is not returned (the constructor fails). *)
Definition update_DER_config (t cfg parent args : dict) : res dict :=
  do _ <- check_DER_config t cfg;
  let empty := map (fun kv => (fst kv, VDict [])) t in
  do d <- foldR (update_component t cfg parent args) empty t;
  let d1 := fold_left (update_RT_component cfg parent args) RT_components d in
  do _ <- dsub "basic_specs" d1; do _ <- dsub "module_parameters" d1;
  do _ <- dsub "inverter_ratings" d1;
  do cp <- dsub "circuit_parameters" d1;
  do r <- pget "R1_actual" cp; do x <- pget "X1_actual" cp;
  do z <- complex_of r x;
  do _ <- dsub "controller_gains" d1; do _ <- dsub "steadystate_values" d1;
  match cp with
  | VDict c => Ok (dset "circuit_parameters" (VDict (dset "Z1_actual" z c)) d1)
  | _ => Raise AttributeError
  end.

(** DER_features.py:565-576, update_RT_config: choose the settings *)
Definition select_RT (file : cfgfile) (design : dict) (out : dict) (rt : string) : res dict :=
  do s <- dsub rt design;
  do c <- pmem "config" s;
  if c then do v <- pget "config" s; Ok (dset rt v out)
  else
    do i <- pmem "config_id" s;
    if i then
      do idv <- pget "config_id" s;
      match idv with
      | VStr id => do e <- dsub id file; do v <- dsub "config" e; Ok (dset rt v out)
      | _ => Raise KeyError
      end
    else Ok out.
(** DER_features.py:580-586: defaults of one zone *)
Definition default_zone (lv : string * pv) : res (string * pv) :=
  match lv with
  | (level, VDict z) =>
      let z1 := if dmem "t_start" z then z else dset "t_start" (VFloat 0) z in
      let z2 := if dmem "threshold_breach" z1 then z1 else dset "threshold_breach" (VBool false) z1 in
      Ok (level, VDict z2)
  | (_, _) => Raise AssertionError
  end.
Fixpoint mapR {A B} (f : A -> res B) (l : list A) : res (list B) :=
  match l with [] => Ok [] | a :: r => do b <- f a; do bs <- mapR f r; Ok (b :: bs) end.
Definition default_zones (out : dict) (rt : string) : res dict :=
  do zs <- dsub rt out;
  match zs with
  | VDict l => do l' <- mapR default_zone l; Ok (dset rt (VDict l') out)
  | _ => Raise AttributeError
  end.
(** DER_features.py:588-591: VRT_delays from the template *)
Definition template_delays : dict :=
  match dget "VRT_delays" VRT_config_template with
  | Some (VDict d) => match dget "config" d with Some (VDict c) => c | _ => [] end
  | _ => []
  end.
Definition default_delays (out : dict) : res dict :=
  do ds <- dsub "VRT_delays" out;
  do ds' <- foldR (fun acc kv => do m <- pmem (fst kv) acc;
                                if m then Ok acc
                                else match acc with
                                     | VDict d => Ok (VDict (dset (fst kv) (snd kv) d))
                                     | _ => Raise TypeError
                                     end) ds template_delays;
  Ok (dset "VRT_delays" ds' out).
(** DER_features.py:565-593, update_RT_config.  Simplification: LVRT and HVRT
    settings taken from one and the same config_id would alias one dictionary;
    adding the defaults twice changes nothing. *)
Definition update_RT_config (file : cfgfile) (design : dict) : res dict :=
  do c <- foldR (select_RT file design) [] (map fst RT_components);
  do c1 <- default_zones c "LVRT";
  do c2 <- default_zones c1 "HVRT";
  default_delays c2.

(** DER_features.py:594-612, check_RT_config: names of the settings of level '1'
    of a template *)
Definition required_settings (rt : string) : list string :=
  match dget rt RT_components with
  | Some (VDict d) => match dget "config" d with
                      | Some (VDict c) => match dget "1" c with Some z => params_of z | None => [] end
                      | _ => []
                      end
  | _ => []
  end.
Definition check_RT (rtc : dict) (rt : string) : res unit :=
  do zs <- dsub rt rtc;
  match zs with
  | VDict l => foldR (fun _ setting =>
                 foldR (fun _ lv => do m <- pmem setting (snd lv);
                                   if m then Ok tt else Raise ValueError) tt l) tt (required_settings rt)
  | _ => Raise AttributeError
  end.
Definition check_RT_config (rtc : dict) : res unit :=
  foldR (fun _ rt => check_RT rtc rt) tt ["LVRT"; "HVRT"; "LFRT"; "HFRT"].

(** utility_classes.py:39-44, initialize_logger: [logging_levels_dict[verbosity]] *)
Definition initialize_logger (v : pv) : res unit :=
  match v with
  | VStr s => do _ <- dsub s logging_levels_dict; Ok tt
  | _ => Raise KeyError
  end.

(** DER_components.py:248-261, check_model_type: logs only; the local variable is
    unbound when no source has the entry *)
Definition check_model_type (cfg parent : dict) : res unit :=
  do b <- dsub "basic_specs" cfg;
  do own <- pmem "model_type" b;
  if own then do _ <- pget "model_type" b; Ok tt
  else do p <- dsub "basic_specs" parent;
       do inh <- pmem "model_type" p;
       if inh then do _ <- pget "model_type" p; Ok tt else Raise UnboundLocalError.

(** DER_components.py:263-286, check_basic_specs: logs only; it reads two entries *)
Definition check_basic_specs (design : dict) : res unit :=
  do b <- dsub "basic_specs" design;
  do _ <- pget "n_phases" b; do _ <- pget "n_ODE" b; Ok tt.

(** What setup_DER leaves behind: the keyword/argument dictionary, the design
    dictionary self.DER_config and self.RT_config. *)
Record setup := Setup { s_model : string; s_id : string; s_args : dict; s_design : dict; s_RT : dict }.

(** DER_components.py:46-68, setup_DER *)
Definition setup_DER (model : string) (file : cfgfile) (derId : string) (kwargs : dict) : res setup :=
  do (cfg, parent) <- create_DER_config model file derId;
  let args := get_DER_arguments cfg kwargs in
  do _ <- dsub "identifier" args;             (* name_instance *)
  do v <- dsub "verbosity" args;
  do _ <- initialize_logger v;
  do _ <- check_model_type cfg parent;
  do t <- create_template model;
  do design <- update_DER_config t cfg parent args;
  do _ <- check_basic_specs design;
  do rt <- update_RT_config file design;
  do _ <- check_RT_config rt;
  Ok (Setup model derId args design rt).

(** DER_check_and_initialize.py:176-183, initialize_basic_specs *)
Definition initialize_basic_specs (model : string) : res (pv * pv * pv) :=
  do t <- create_template model;
  do b <- dsub "basic_specs" t;
  do n <- pget "n_ODE" b; do p <- pget "n_phases" b; do u <- pget "unbalanced" b;
  Ok (n, p, u).

(** DER_check_and_initialize.py:185-193, initialize_basic_options *)
Definition initialize_basic_options (design : dict) : res (list pv) :=
  do b <- dsub "basic_options" design;
  do ts <- pget "t_stable" b; do ms <- pget "m_steady_state" b;
  do cg <- pget "current_gradient_limiter" b; do vm <- pget "Vrms_measurement_type" b;
  Ok [ts; ms; cg; vm].

(** DER_components.py:237-246, initialize_flags *)
Definition initialize_flags (args : dict) : res (pv * pv * pv) :=
  do s <- dsub "standAlone" args;
  do i <- dsub "steadyStateInitialization" args;
  do a <- dsub "allowUnbalancedM" args;
  Ok (s, i, a).

(** DER_check_and_initialize.py:569-587, attach_grid_model *)
Definition attach_grid_model (standAlone : pv) (args : dict) : res unit :=
  if truthy standAlone
  then if dmem "gridModel" args then Ok tt else Raise ValueError
  else Ok tt.

(** The result of initialize_grid_measurements: the phase voltages are the
    supplied ones divided by Vbase, or phase A turned by -120/+120 degrees. *)
Inductive gvolt := Supplied (v : pv) | RotB | RotC.
Record grid_meas := GridMeas { gm_freq : pv; gm_a : gvolt; gm_b : option gvolt; gm_c : option gvolt }.
Definition need (name : string) (args : dict) : res pv :=
  match dget name args with Some v => Ok v | None => Raise ValueError end.
(** DER_check_and_initialize.py:195-238, initialize_grid_measurements (the model
    types have 1 or 3 phases) *)
Definition initialize_grid_measurements (nphases : Z) (unbalanced : bool) (standAlone : pv) (args : dict)
    : res (option grid_meas) :=
  if truthy standAlone then Ok None
  else
    do f <- need "gridFrequency" args;
    do a <- need "gridVoltagePhaseA" args;
    do b <- (if (2 <=? nphases)%Z
             then if unbalanced then do v <- need "gridVoltagePhaseB" args; Ok (Some (Supplied v)) else Ok (Some RotB)
             else Ok None);
    do c <- (if (3 <=? nphases)%Z
             then if unbalanced then do v <- need "gridVoltagePhaseC" args; Ok (Some (Supplied v)) else Ok (Some RotC)
             else Ok None);
    Ok (Some (GridMeas f (Supplied a) b c)).

(** The configuration phase of a constructor: setup_DER (DER_components.py:46-68),
    self.DER_config['basic_options']['Sinsol'] (DER_components_three_phase.py:54),
    then initialize_DER up to the grid measurements (DER_components.py:212-218). *)
Record built := Built { b_setup : setup; b_nODE : pv; b_nphases : pv; b_unbalanced : pv;
                        b_standAlone : pv; b_steady : pv; b_grid : option grid_meas }.
Definition as_Z (v : pv) : Z := match v with VInt z => z | _ => 0%Z end.
Definition configure_DER (model : string) (file : cfgfile) (derId : string) (kwargs : dict) : res built :=
  do s <- setup_DER model file derId kwargs;
  do bo <- dsub "basic_options" (s_design s);
  do _ <- pget "Sinsol" bo;
  do (n, p, u) <- initialize_basic_specs model;
  do _ <- initialize_basic_options (s_design s);
  do (sa, ss, _) <- initialize_flags (s_args s);
  do _ <- attach_grid_model sa (s_args s);
  do g <- initialize_grid_measurements (as_Z p) (truthy u) sa (s_args s);
  Ok (Built s n p u sa ss g).

(** DER_wrapper.py:73-91, DERModel.get_config (no completion; [self.name] and
    [self.parameter_ID] do not exist on a DERModel) *)
Definition wrapper_get_config (file : cfgfile) (derId : string) : res dict :=
  do cfg <- get_DER_config file derId;
  do parent <- get_DER_parent_config false file (get_DER_parent_id cfg);
  update_DER_config_specs cfg parent.

(** DER_wrapper.py:113-136, create_DER_model.  The calls for the two types in the
    second line name an undefined variable config_dict, evaluated before the call. *)
Definition create_DER_model (modelType : string) (file : cfgfile) (derId : string) (kwargs : dict) : res built :=
  if existsb (String.eqb modelType) ["SolarPVDERThreePhaseNoVrmsFilter"; "SolarPVDERThreePhaseConstantVdc"]
  then Raise NameError
  else if existsb (String.eqb modelType)
            ["SolarPVDERThreePhase"; "SolarPVDERThreePhaseBalanced"; "SolarPVDERSinglePhase";
             "SolarPVDERSinglePhaseConstantVdc"; "SolarPVDERThreePhaseNumba"]
  then configure_DER modelType file derId kwargs
  else Raise ValueError.

(** DER_wrapper.py:65-69, DERModel.__init__ with createDERModel=True: the type is
    read from the configuration *)
Definition DERModel_init (file : cfgfile) (derId : string) (kwargs : dict) : res built :=
  do cfg <- wrapper_get_config file derId;
  do b <- dsub "basic_specs" cfg;
  do mt <- pget "model_type" b;
  match mt with
  | VStr m => create_DER_model m file derId kwargs
  | _ => Raise ValueError
  end.
