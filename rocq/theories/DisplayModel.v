(** Model of show_PV_DER_parameters (DER_utilities.py:441-470) and of the attribute
    initialisation it reads (DER_components.py:403-412,
    DER_check_and_initialize.py:185-193, 388-415, 427-446, 485-516). *)
From Verif Require Import Base ConfigValues ConfigData ConfigModel.
Open Scope string_scope.

(** A shown number: [Shown q false] is q, [Shown q true] is q times the square
    root of two (Varated, DER_check_and_initialize.py:412). *)
Record shown := Shown { s_val : Q; s_root2 : bool }.
Definition attrs := list (string * shown).
(** self.x: AttributeError when it was never assigned *)
Definition attr (a : attrs) (x : string) : res shown :=
  match dget x a with Some v => Ok v | None => Raise AttributeError end.

(** self.<component>[self.parameter_ID][parameter].  The dictionaries hold exactly
    the DER's own ID (DER_check_and_initialize.py:72-79), so the [in] tests of
    lines 376, 430, 488 and DER_components.py:406 succeed.  Simplification: the
    number is converted here ([num]), the code keeps int/float objects. *)
Definition item (design : dict) (comp p : string) : res shown :=
  do c <- dsub comp design; do v <- pget p c; do q <- num v; Ok (Shown q false).
Definition load (design : dict) (a : attrs) (x : string * (string * string)) : res attrs :=
  let '(name, (comp, p)) := x in do v <- item design comp p; Ok (dset name v a).

(** 'p' in templates.DER_design_template[self.DER_model_type][comp] *)
Definition in_template (model comp p : string) : res bool :=
  do t <- create_template model; do c <- dsub comp t; pmem p c.
Definition load_if (model comp p : string) (f : attrs -> res attrs) (a : attrs) : res attrs :=
  do b <- in_template model comp p; if b then f a else Ok a.
Definition scaled (design : dict) (base : Q) (name p : string) (a : attrs) : res attrs :=
  do v <- item design "circuit_parameters" p; Ok (dset name (Shown (s_val v / base) false) a).

(** initialize_circuit_parameters, lines 433-444, the three values shown *)
Definition initialize_circuit (model : string) (design : dict) (Zb Lb Cb : Q) (a : attrs) : res attrs :=
  do a <- load_if model "circuit_parameters" "Rf_actual" (scaled design Zb "Rf" "Rf_actual") a;
  do a <- load_if model "circuit_parameters" "Lf_actual" (scaled design Lb "Lf" "Lf_actual") a;
  load_if model "circuit_parameters" "C_actual" (scaled design Cb "C" "C_actual") a.

(** initialize_controller_gains, lines 485-516; line 498 tests 'Kp_DC' for Ki_DC *)
Definition gain (design : dict) (g : string) (a : attrs) : res attrs := load design a (g, ("controller_gains", g)).
Definition initialize_controller_gains (model : string) (design : dict) (a : attrs) : res attrs :=
  do a <- gain design "Kp_GCC" a; do a <- gain design "Ki_GCC" a; do a <- gain design "wp" a;
  foldR (fun a x => load_if model "controller_gains" (fst x) (gain design (snd x)) a) a
    [("Kp_DC", "Kp_DC"); ("Kp_DC", "Ki_DC"); ("Kp_P", "Kp_P"); ("Ki_P", "Ki_P"); ("Kp_Q", "Kp_Q"); ("Ki_Q", "Ki_Q");
     ("Tfilter_Vrms", "Tfilter_Vrms")].

Definition initialize_attrs (model : string) (design : dict) (Zb Lb Cb : Q) : res attrs :=
  do a <- foldR (load design) []
    [("m_steady_state", ("basic_options", "m_steady_state"));
     ("Np", ("module_parameters", "Np")); ("Ns", ("module_parameters", "Ns")); ("Vdcmpp0", ("module_parameters", "Vdcmpp0"));
     ("Vdcmpp_min", ("module_parameters", "Vdcmpp_min")); ("Vdcmpp_max", ("module_parameters", "Vdcmpp_max"));
     ("Sinverter_rated", ("inverter_ratings", "Srated")); ("Vdcrated", ("inverter_ratings", "Vdcrated"))];
  do v <- item design "inverter_ratings" "Vrmsrated";
  do a <- initialize_circuit model design Zb Lb Cb (dset "Varated" (Shown (s_val v) true) a);
  initialize_controller_gains model design a.

(** * Output *)
Inductive line := Text (s : string) | Value (label : string) (v : shown).
(** one print call: all its arguments are evaluated before anything is printed *)
Definition print (vs : list (string * res shown)) : res (list line) :=
  foldR (fun acc x => do v <- snd x; Ok (acc ++ [Value (fst x) v])%list) [] vs.
Definition times (k : Q) (v : res shown) : res shown := do x <- v; Ok (Shown (s_val x * k) (s_root2 x)).
(** a sequence of print calls; what was printed before an exception stays printed *)
Fixpoint prints (out : list line) (l : list (res (list line))) : list line * res unit :=
  match l with
  | [] => (out, Ok tt)
  | Ok x :: r => prints (out ++ x)%list r
  | Raise e :: _ => (out, Raise e)
  end.

(** properties.py:136-141 *)
Definition controller_properties : list (string * list string) :=
  [("Current controller", ["Kp_GCC"; "Ki_GCC"; "wp"]); ("DC link voltage controller", ["Kp_DC"; "Ki_DC"]);
   ("Active power controller", ["Kp_P"; "Ki_P"]); ("Reactive power controller", ["Kp_Q"; "Ki_Q"]);
   ("PLL controller", ["Kp_PLL"; "Ki_PLL"])].
(** lines 464-468 *)
Definition template_gains (model : string) : res (list string) :=
  do t <- create_template model; do c <- dsub "controller_gains" t; Ok (params_of c).
Definition show_controller (keys : list string) (a : attrs) (c : string * list string) : list (res (list line)) :=
  if forallb (fun g => existsb (String.eqb g) keys) (snd c)
  then Ok [Text (fst c)] :: map (fun g => print [(g, attr a g)]) (snd c)
  else [].
Definition show_gains (model : string) (a : attrs) : list (res (list line)) :=
  match template_gains model with
  | Raise e => [Raise e]
  | Ok keys => flat_map (show_controller keys a) controller_properties
  end.

(** show_PV_DER_parameters, lines 441-470 *)
Definition show_types : list string := ["module_parameters"; "inverter_ratings"; "controller_gains"; "circuit_parameters"; "all"].
Definition show_PV_DER_parameters (model : string) (a : attrs) (Zb Lb Cb : Q) (ty : string) : list line * res unit :=
  if negb (existsb (String.eqb ty) show_types) then ([], Raise ValueError)
  else
    let on x := (String.eqb ty x || String.eqb ty "all")%bool in
    prints [Text "Parameters"]
     ((if on "module_parameters" then
         [print [("Np", attr a "Np"); ("Ns", attr a "Ns")];
          print [("Vdcmpp0", attr a "Vdcmpp0"); ("Vdcmpp_min", attr a "Vdcmpp_min"); ("Vdcmpp_max", attr a "Vdcmpp_max")]] else []) ++
      (if on "inverter_ratings" then
         [print [("Srated", attr a "Sinverter_rated")];
          print [("Vdcrated", attr a "Vdcrated")];
          print [("Vtrated (L-G peak)", do v <- attr a "Vdcrated"; do m <- attr a "m_steady_state"; Ok (Shown (s_val v / 2 * s_val m) false));
                 ("Vrated (L-G peak)", attr a "Varated")]] else []) ++
      (if on "circuit_parameters" then
         [print [("Cdc", times Cb (attr a "C")); ("Lf", times Lb (attr a "Lf")); ("Rf", times Zb (attr a "Rf"))]] else []) ++
      (if on "controller_gains" then show_gains model a else []))%list.
