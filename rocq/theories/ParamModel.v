(** Model of the parameter dictionaries of a DER object:
    DER_utilities.py:642-860.  Printing and logging are left out. *)
From Coq Require Import Ascii.
From Verif Require Import Base ConfigValues ConfigData.
Open Scope string_scope.

(** The five attributes, each a dictionary from parameter ID to parameters:
    DER_check_and_initialize.py:72-79.  Initially each holds the DER's own ID only.
    Simplification: the entry of the own ID is the same object as a section of
    self.DER_config; that alias is not modelled. *)
Record params := Params { p_mod : list (string * dict); p_inv : list (string * dict); p_circ : list (string * dict);
                          p_gain : list (string * dict); p_ss : list (string * dict) }.
Inductive ptype := PModule | PInverter | PCircuit | PGains | PSteady.
Definition ptypes : list ptype := [PModule; PInverter; PCircuit; PGains; PSteady].
Definition pname (p : ptype) : string :=
  match p with PModule => "module_parameters" | PInverter => "inverter_ratings" | PCircuit => "circuit_parameters"
             | PGains => "controller_gains" | PSteady => "steadystate_values" end.
Definition pfield (p : ptype) (s : params) : list (string * dict) :=
  match p with PModule => p_mod s | PInverter => p_inv s | PCircuit => p_circ s | PGains => p_gain s | PSteady => p_ss s end.
Definition pset (p : ptype) (s : params) (f : list (string * dict)) : params :=
  match p with
  | PModule => Params f (p_inv s) (p_circ s) (p_gain s) (p_ss s)
  | PInverter => Params (p_mod s) f (p_circ s) (p_gain s) (p_ss s)
  | PCircuit => Params (p_mod s) (p_inv s) f (p_gain s) (p_ss s)
  | PGains => Params (p_mod s) (p_inv s) (p_circ s) f (p_ss s)
  | PSteady => Params (p_mod s) (p_inv s) (p_circ s) (p_gain s) f
  end.
Definition pparse (n : string) : option ptype := find (fun p => String.eqb n (pname p)) ptypes.

(** DER_utilities.py:658-669, get_default_parameter_ID; for other model types the
    local variable is unbound *)
Definition get_default_parameter_ID (model : string) : res string :=
  if String.eqb model "SolarPVDERSinglePhase" then Ok "10"
  else if existsb (String.eqb model) ["SolarPVDERThreePhase"; "SolarPVDERThreePhaseNoVrmsFilter"; "SolarPVDERThreePhaseNumba"] then Ok "50"
  else Raise UnboundLocalError.

(** DER_utilities.py:642-656, create_parameter_dict (the ID is a string) *)
Definition create_one (deflt pid : string) (p : ptype) (s : params) : params * res unit :=
  match dget deflt (pfield p s) with
  | None => (s, Raise KeyError)
  | Some d => (pset p s (dset pid (map (fun kv => (fst kv, VNone)) d) (pfield p s)), Ok tt)
  end.
Fixpoint seq (l : list (params -> params * res unit)) (s : params) : params * res unit :=
  match l with
  | [] => (s, Ok tt)
  | f :: r => match f s with (s1, Ok _) => seq r s1 | (s1, Raise e) => (s1, Raise e) end
  end.
Definition create_parameter_dict (model : string) (s : params) (pid : string) : params * res unit :=
  match get_default_parameter_ID model with
  | Raise e => (s, Raise e)
  | Ok deflt => seq (map (create_one deflt pid) ptypes) s
  end.

(** DER_utilities.py:685-716, update_parameter_dict *)
Definition update_parameter_dict (model : string) (s : params) (pid ty : string) (d : dict) : params * res unit :=
  match dget model DER_design_template with
  | None => (s, Raise KeyError)
  | Some t =>
      if negb (dmem ty t) then (s, Raise ValueError)
      else match pparse ty with
           | None => (s, Ok tt)
           | Some p => match d with
                       | [] => (s, Ok tt)
                       | _ => match dget pid (pfield p s) with
                              | None => (s, Raise KeyError)
                              | Some cur => (pset p s (dset pid (dupdate cur d) (pfield p s)), Ok tt)
                              end
                       end
           end
  end.

(** DER_utilities.py:671-683, initialize_parameter_dict *)
Definition copy_one (model pid src : string) (p : ptype) (s : params) : params * res unit :=
  match dget src (pfield p s) with
  | None => (s, Raise KeyError)
  | Some d => update_parameter_dict model s pid (pname p) d
  end.
Definition initialize_parameter_dict (model : string) (s : params) (pid src : string) : params * res unit :=
  match create_parameter_dict model s pid with
  | (s1, Raise e) => (s1, Raise e)
  | (s1, Ok _) => seq (map (copy_one model pid src) ptypes) s1
  end.

(** DER_utilities.py:748-786, get_parameter_dictionary *)
Definition get_parameter_dictionary (s : params) (ty pid : string) : res dict :=
  if negb (existsb (String.eqb ty) ["module_parameters"; "inverter_ratings"; "controller_gains"; "circuit_parameters"; "all"])
  then Raise ValueError
  else if negb (dmem pid (p_mod s)) then Raise ValueError
  else foldR (fun acc p => if String.eqb ty (pname p) || String.eqb ty "all"
                           then do d <- dsub pid (pfield p s); Ok (dupdate acc d)
                           else Ok acc) [] ptypes.

(** Files written by pickle.dump and read by pickle.load: a pickled dictionary is
    read back unchanged. *)
Definition files := list (string * dict).
(** DER_utilities.py:788-814, save_parameter_dictionary: an unknown format prints a
    message and returns an unbound variable *)
Definition save_parameter_dictionary (s : params) (fs : files) (pid fmt : string) : files * res string :=
  match get_parameter_dictionary s "all" pid with
  | Raise e => (fs, Raise e)
  | Ok d => if String.eqb fmt "pickle" then (dset (pid ++ ".pkl") d fs, Ok (pid ++ ".pkl"))
            else (fs, Raise UnboundLocalError)
  end.

(** file_name.split('.')[0] *)
Fixpoint before_dot (f : string) : string :=
  match f with
  | EmptyString => EmptyString
  | String c r => if Ascii.eqb c "."%char then EmptyString else String c (before_dot r)
  end.
(** DER_utilities.py:816-846, load_parameter_dictionary *)
Definition load_parameter_dictionary (model : string) (s : params) (fs : files) (fname : string) : params * res dict :=
  match dget fname fs with
  | None => (s, Raise FileNotFoundError)   (* open(), line 819 *)
  | Some d =>
      match get_default_parameter_ID model with
      | Raise e => (s, Raise e)
      | Ok deflt =>
          match initialize_parameter_dict model s (before_dot fname) deflt with
          | (s1, Raise e) => (s1, Raise e)
          | (s1, Ok _) =>
              match seq (map (fun p s => update_parameter_dict model s (before_dot fname) (pname p) d) ptypes) s1 with
              | (s2, Ok _) => (s2, Ok d)
              | (s2, Raise e) => (s2, Raise e)
              end
          end
      end
  end.

(** The dictionaries of a freshly created DER: its own ID only. *)
Definition fresh_params (pid : string) (m i c g z : dict) : params :=
  Params [(pid, m)] [(pid, i)] [(pid, c)] [(pid, g)] [(pid, z)].

(** A history of calls. *)
Inductive pop := OCreate (pid : string) | OInit (pid src : string) | OUpdate (pid ty : string) (d : dict) | OLoad (fs : files) (f : string).
Definition pstep (model : string) (s : params) (o : pop) : params :=
  match o with
  | OCreate pid => fst (create_parameter_dict model s pid)
  | OInit pid src => fst (initialize_parameter_dict model s pid src)
  | OUpdate pid ty d => fst (update_parameter_dict model s pid ty d)
  | OLoad fs f => fst (load_parameter_dictionary model s fs f)
  end.
