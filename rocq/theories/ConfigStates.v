(** Model of initialize_states: the state a DER starts from. *)
From Verif Require Import Base ConfigValues ConfigData ConfigModel.
From Verif Require SimModel.
Open Scope string_scope.

(** Complex values: given, or turned by -120 / +120 degrees
    (utility_functions.py, Ub_calc and Uc_calc). *)
Inductive cval := CGiven (v : pv) | CTurnB (c : cval) | CTurnC (c : cval).
(** Value of a state attribute: real or imaginary part of a complex value, a
    number, or the DC-link reference. *)
Inductive sval := SRe (c : cval) | SIm (c : cval) | SNum (v : pv) | SVdcRef.

(** DER_check_and_initialize.py:250-284: [name] from the dictionary, else the
    complex number made of two entries / the entry of self.DER_config['initial_states'] *)
Definition init_complex (design args : dict) (name re im : string) : res pv :=
  match dget name args with
  | Some v => Ok v
  | None => do c <- dsub "initial_states" design; do r <- pget re c; do i <- pget im c; complex_of r i
  end.
Definition init_number (design args : dict) (name : string) : res pv :=
  match dget name args with
  | Some v => Ok v
  | None => do c <- dsub "initial_states" design; pget name c
  end.
(** xDC, xP and xQ are only handled when the template of the model type has them *)
Definition init_optional (t design args : dict) (name : string) : res (option pv) :=
  do c <- dsub "initial_states" t;
  do m <- pmem name c;
  if m then do v <- init_number design args name; Ok (Some v) else Ok None.

(** The attributes assigned; complex ones are split into real and imaginary part,
    named as in SimModel. *)
Definition split_complex (name : string) (c : cval) : list (string * sval) :=
  [(name ++ "R", SRe c); (name ++ "I", SIm c)].
Definition opt_number (name : string) (v : option pv) : list (string * sval) :=
  match v with Some x => [(name, SNum x)] | None => [] end.

(** DER_check_and_initialize.py:241-332, initialize_states.  [None] for a DER that
    is initialized to its steady state: then steady_state_calc (723-831) assigns the
    states (see SteadyModel). *)
Definition initialize_states (model : string) (design args : dict) (steady : pv)
    : res (option (list (string * sval))) :=
  do t <- create_template model;
  do ia <- init_complex design args "ia" "iaR" "iaI";
  do xa <- init_complex design args "xa" "xaR" "xaI";
  do ua <- init_complex design args "ua" "uaR" "uaI";
  do xDC <- init_optional t design args "xDC";
  do xP <- init_optional t design args "xP";
  do xQ <- init_optional t design args "xQ";
  do xPLL <- init_number design args "xPLL";
  do wte <- init_number design args "wte";
  if truthy steady then Ok None
  else Ok (Some (
    [("Vdc", SVdcRef)] ++
    split_complex "ia" (CGiven ia) ++ split_complex "xa" (CGiven xa) ++ split_complex "ua" (CGiven ua) ++
    opt_number "xDC" xDC ++ opt_number "xP" xP ++ opt_number "xQ" xQ ++
    [("xPLL", SNum xPLL); ("wte", SNum wte)] ++
    (if existsb (String.eqb model) three_phase_models then
       split_complex "ib" (CTurnB (CGiven ia)) ++ split_complex "xb" (CTurnB (CGiven xa)) ++ split_complex "ub" (CTurnB (CGiven ua)) ++
       split_complex "ic" (CTurnC (CGiven ia)) ++ split_complex "xc" (CTurnC (CGiven xa)) ++ split_complex "uc" (CTurnC (CGiven ua))
     else []))%list).

(** Everything the constructor derives from its arguments: configure_DER, then
    initialize_states (DER_components.py:225).  In between only numbers of the
    design dictionary are used. *)
Record outcome := Outcome { o_design : dict; o_RT : dict; o_nODE : pv; o_nphases : pv; o_unbalanced : pv;
                            o_standAlone : pv; o_steady : pv; o_grid : option grid_meas;
                            o_states : option (list (string * sval)) }.
Definition construct (model : string) (file : cfgfile) (derId : string) (kwargs : dict) : res outcome :=
  do b <- create_DER_model model file derId kwargs;
  do st <- initialize_states model (s_design (b_setup b)) (s_args (b_setup b)) (b_steady b);
  Ok (Outcome (s_design (b_setup b)) (s_RT (b_setup b)) (b_nODE b) (b_nphases b) (b_unbalanced b)
              (b_standAlone b) (b_steady b) (b_grid b) st).
