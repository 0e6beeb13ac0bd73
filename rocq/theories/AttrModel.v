(** Which attributes a DER object has after its creation, and the two methods
    that print them: show_PV_DER_states (/repo/pvder/DER_utilities.py:402-438)
    and debug_simulation (/repo/pvder/dynamic_simulation.py:350-369). *)
From Coq Require Import String.
From Verif Require Import Base.
Open Scope string_scope.

(** * Attributes assigned by each method
    (name, condition); only assignments to attributes of self.  [Always] is an
    assignment on every path through the method; [StandAlone] one inside
    [if self.standAlone]; assignments under DO_EXTRA_CALCULATIONS are left out
    (none of them is read by the methods below). *)
Inductive cond := Always | StandAlone.
Definition always (l : list string) : list (string * cond) := map (fun x => (x, Always)) l.
Definition three (cls : string) : bool := existsb (String.eqb cls)
  ["SolarPVDERThreePhase"; "SolarPVDERThreePhaseBalanced"; "SolarPVDERThreePhaseConstantVdc";
   "SolarPVDERThreePhaseNoVrmsFilter"; "SolarPVDERThreePhaseNumba"].
Definition constant_Vdc (cls : string) : bool := existsb (String.eqb cls)
  ["SolarPVDERSinglePhaseConstantVdc"; "SolarPVDERThreePhaseConstantVdc"].

(** update_voltages: single_phase.py:156-165, single_phase_constant_Vdc.py:148-154,
    three_phase.py:175-191, balanced.py:176-189, constant_Vdc.py:184-197,
    no_Vrms_filter.py:174-190, numba.py:314-334 *)
Definition update_voltages (cls : string) : list (string * cond) :=
  always (if three cls then ["vta"; "vtb"; "vtc"; "va"; "vb"; "vc"] else ["vta"; "va"]).
(** update_power: single_phase.py:181-193, single_phase_constant_Vdc.py:169-182,
    three_phase.py:210-229, balanced.py:207-227, constant_Vdc.py:215-235,
    no_Vrms_filter.py:209-228, numba.py:353-376 *)
Definition update_power (cls : string) : list (string * cond) :=
  (always ["S"; "S_PCC"] ++ map (fun x => (x, StandAlone))
     (if three cls then ["iaload1"; "ibload1"; "icload1"; "S_G"; "S_load1"] else ["iaload1"; "S_G"; "S_load1"]))%list.
(** update_RMS: single_phase.py:167-179, single_phase_constant_Vdc.py:156-167,
    three_phase.py:194-207, balanced.py:192-204, constant_Vdc.py:199-213,
    no_Vrms_filter.py:193-206, numba.py:337-351 *)
Definition update_RMS (cls : string) : list (string * cond) := always ["Vtrms"; "Vrms"; "Vrms_min"; "Irms"].
(** update_iref: single_phase.py:195-204 (ia_ref on both branches),
    single_phase_constant_Vdc.py:194-202, three_phase.py:231-246, balanced.py:230-244,
    constant_Vdc.py:247-259, no_Vrms_filter.py:230-245, numba.py:378-391 *)
Definition update_iref (cls : string) : list (string * cond) :=
  always (if three cls then ["ia_ref"; "t_iref"; "ib_ref"; "ic_ref"] else ["ia_ref"]).
(** update_inverter_frequency: single_phase.py:206-226,
    single_phase_constant_Vdc.py:204-223, three_phase.py:248-261, balanced.py:247-262,
    constant_Vdc.py:261-276, no_Vrms_filter.py:247-260, numba.py:392-406 *)
Definition update_inverter_frequency (cls : string) : list (string * cond) :=
  always ("wgrid_measured" :: (if three cls then ["vat"; "vbt"; "vct"; "vd"; "vq"; "v0"] else ["valpha"; "vbeta"; "vd"; "vq"])
          ++ ["we"; "winv"])%list.
(** initialize_states, DER_check_and_initialize.py:291-331, with
    steadyStateInitialization off (the other branch assigns these as well) *)
Definition initialize_states (cls : string) : list (string * cond) :=
  always (["Vdc"; "Ppv"; "ia"; "xa"; "ua"] ++ (if constant_Vdc cls then ["xP"] else ["xDC"]) ++ ["xQ"; "xPLL"; "wte"] ++
          (if three cls then ["ib"; "xb"; "ub"; "ic"; "xc"; "uc"] else []))%list.
(** initialize_derived_quantities, DER_check_and_initialize.py:335-348 *)
Definition initialize_derived (cls : string) : list (string * cond) :=
  (update_voltages cls ++ update_power cls ++ update_RMS cls ++ always ["ia_ref"; "t_iref"] ++ update_iref cls ++
   update_inverter_frequency cls)%list.
(** initialize_DER, DER_components.py:209-236, in its order.  initialize_Vdc
    (DER_check_and_initialize.py:401) assigns Vdc_ref, PVModule.__init__
    (DER_components.py:330) Sinsol, update_Qref (DER_utilities.py:318) Q_ref. *)
Definition created (cls : string) : list (string * cond) :=
  (always ["Sinsol"; "Vdc_ref"; "Q_ref"] ++ initialize_states cls ++ initialize_derived cls)%list.
(** properties of the class with the attributes they are computed from:
    DER_utilities.py:69-104 (ma = Kp_GCC*ua + xa etc.; Kp_GCC is set on every type by
    initialize_controller_gains) *)
Definition class_properties : list (string * list string) :=
  [("ma", ["ua"; "xa"]); ("mb", ["ub"; "xb"]); ("mc", ["uc"; "xc"])].

(** The attributes present on a DER once it exists: nothing in the package
    deletes an attribute, and no other statement assigns one of the names read
    below under a name that is not in this table. *)
Definition assigned (cls : string) (standAlone : bool) (x : string) : bool :=
  existsb (fun a => String.eqb x (fst a) && match snd a with Always => true | StandAlone => standAlone end) (created cls).
(** What can be read: an attribute, or a property whose attributes can be read (its
    body raises AttributeError otherwise). *)
Definition has (cls : string) (standAlone : bool) (x : string) : bool :=
  assigned cls standAlone x
  || existsb (fun a => String.eqb x (fst a) && forallb (assigned cls standAlone) (snd a)) class_properties.
(** Grid.__init__ and steady_state_model, grid_components.py:34-110 *)
Definition grid_has (x : string) : bool := existsb (String.eqb x)
  ["events"; "name"; "unbalance_ratio_b"; "unbalance_ratio_c"; "Z2_actual"; "R2_actual"; "L2_actual"; "R2"; "L2"; "Z2";
   "transmission_name"; "Vagrid"; "wgrid"; "Vbgrid"; "Vcgrid"; "vag"; "vbg"; "vcg"; "Vgrms";
   "_t_voltage_previous"; "_t_frequency_previous"].

(** * show_PV_DER_states *)
Definition cq := (Q * Q)%type.
Definition scale (k : Q) (z : cq) : cq := (fst z * k, snd z * k).
Definition add (a b : cq) : cq := (fst a + fst b, snd a + snd b).
(** the values of the attributes; reading one that the object does not have is
    AttributeError *)
Definition values := string -> cq.
Definition get (cls : string) (sa : bool) (v : values) (x : string) : res cq :=
  if has cls sa x then Ok (v x) else Raise AttributeError.

(** A printed number with its label and unit (rounding to two decimals left out) *)
Record line := Line { l_label : string; l_val : cq; l_unit : string }.
Definition rmap {A B} (f : A -> B) (r : res A) : res B := bindR r (fun a => Ok (f a)).
Definition sum3 (a b c : res cq) : res cq := bindR a (fun x => bindR b (fun y => bindR c (fun z => Ok (add (add x y) z)))).
(** one print call: all arguments are evaluated first *)
Fixpoint lines (l : list (string * res cq * string)) : res (list line) :=
  match l with
  | [] => Ok []
  | (n, r, u) :: l' => bindR r (fun z => bindR (lines l') (fun t => Ok (Line n z u :: t)))
  end.
(** successive print calls; output before an exception stays *)
Fixpoint prints (out : list line) (l : list (res (list line))) : list line * res unit :=
  match l with
  | [] => (out, Ok tt)
  | Ok x :: r => prints (out ++ x)%list r
  | Raise e :: _ => (out, Raise e)
  end.

(** BaseValues.Vbase, Ibase, Sbase, grid_components.py:13-17 *)
Definition Vbase : Q := 500.
Definition Sbase : Q := 50000.
Definition Ibase : Q := Sbase / Vbase.

(** Lines 402-438.  self.n_phases is 3 for the three-phase types
    (templates.py basic_specs).  The header line is left out. *)
Definition show_PV_DER_states (cls : string) (sa : bool) (v : values) (quantity : string) : list line * res unit :=
  let g x := get cls sa v x in
  let V x := rmap (scale Vbase) (g x) in
  let I x := rmap (scale Ibase) (g x) in
  let P x := rmap (scale Sbase) (g x) in
  let ph (l : list (string * res cq * string)) : list (res (list line)) := if three cls then [lines l] else [] in
  if String.eqb quantity "voltage" then
    prints [] ([lines [("Vdc", V "Vdc", ""); ("Vta", V "vta", "V")]]
      ++ ph [("Vtb", V "vtb", "V"); ("Vtb", V "vtc", "V"); ("Vtn", rmap (scale Vbase) (sum3 (g "vta") (g "vtb") (g "vtc")), "V")]
      ++ [lines [("Va", V "va", "V")]]
      ++ ph [("Vb", V "vb", "V"); ("Vc", V "vc", "V"); ("Vn", rmap (scale Vbase) (sum3 (g "vta") (g "vtb") (g "vtc")), "V")]
      ++ [lines [("Vtrms", V "Vtrms", "V"); ("Vpccrms", V "Vrms", "V")]])%list
  else if String.eqb quantity "current" then
    prints [] ([lines [("ia", I "ia", "A")]]
      ++ ph [("ib", I "ib", "A"); ("ic", I "ic", "A"); ("In", rmap (scale Ibase) (sum3 (g "ia") (g "ib") (g "ic")), "A")]
      ++ [lines [("Irms", I "Irms", "V")]])%list
  else if String.eqb quantity "power" then
    prints [] [lines [("Ppv", P "Ppv", "W"); ("S", P "S", "VA"); ("S_PCC", P "S_PCC", "VA")]]
  else if String.eqb quantity "duty cycle" then
    prints [] ([lines [("ma", g "ma", "")]]
      ++ ph [("mb", g "mb", ""); ("mc", g "mc", ""); ("m0", sum3 (g "ma") (g "mb") (g "mc"), "")])%list
  else ([], Raise ValueError).

(** * debug_simulation, called by every right-hand side evaluation when
    DEBUG_SIMULATION is set (dynamic_simulation.py:329-330;
    simulation_utilities.py:446-447).  Each block formats the attributes listed
    here, in order; a missing one is AttributeError.  self.grid_model exists only
    in a stand-alone simulation (dynamic_simulation.py:67-68). *)
Record dflags := DFlags { d_volt : bool; d_curr : bool; d_pow : bool; d_ctrl : bool; d_pll : bool }.
Inductive owner := Der | GridM.
Definition readable (cls : string) (sa : bool) (r : owner * string) : bool :=
  match r with (Der, x) => has cls sa x | (GridM, x) => sa && grid_has x end.
Definition block (cls : string) (sa : bool) (on : bool) (reads : list (owner * string)) : res unit :=
  if on then if forallb (readable cls sa) reads then Ok tt else Raise AttributeError else Ok tt.
Definition debug_simulation (cls : string) (sa : bool) (f : dflags) : res unit :=
  let D := map (fun x => (Der, x)) in
  bindR (block cls sa (d_volt f) (D ["Vdc_ref"; "Vdc"; "Vtrms"; "Vrms"] ++ [(GridM, "Vgrms"); (GridM, "Vagrid_no_conversion"); (GridM, "Vagrid")])%list) (fun _ =>
  bindR (block cls sa (d_curr f) (D ["ia_ref"; "ia"; "iaload1"])) (fun _ =>
  bindR (block cls sa (d_pow f) (D ["Sinsol"; "Q_ref"; "Ppv"; "S"; "S_PCC"; "S_load1"; "S_G"])) (fun _ =>
  bindR (block cls sa (d_ctrl f) (D ["xdc"; "xQ"; "ua"; "xa"; "ma"])) (fun _ =>
  block cls sa (d_pll f) (D ["we"; "wte"; "vd"; "vq"]))))).
(** ODE_model, dynamic_simulation.py:321-335 (and ODE_model_ode,
    simulation_utilities.py:438-450): the derivatives are computed first, [rhs] is
    that computation on any state; an exception of debug_simulation is re-raised. *)
Definition ODE_model {St Y} (cls : string) (sa debug : bool) (f : dflags) (rhs : St -> Q -> St * res Y) (s : St) (t : Q) : St * res Y :=
  match rhs s t with
  | (s1, Raise e) => (s1, Raise e)
  | (s1, Ok y) => if debug then match debug_simulation cls sa f with Ok _ => (s1, Ok y) | Raise e => (s1, Raise e) end
                  else (s1, Ok y)
  end.

(** Vabrms_calc, the line-to-line RMS voltage abs(self.va-self.vb)/math.sqrt(2):
    DER_components_single_phase.py:127-132, single_phase_constant_Vdc.py:120-125,
    three_phase.py:142-147, balanced.py:143-148, constant_Vdc.py:149-154,
    no_Vrms_filter.py:142-147.  [rms] is the computation on the two phasors
    (ExtraModel.Vabrms_calc); here only the attribute lookup. *)
Definition Vabrms_method {A} (cls : string) (sa : bool) (v : values) (rms : cq -> cq -> A) : res A :=
  bindR (get cls sa v "va") (fun a => bindR (get cls sa v "vb") (fun b => Ok (rms a b))).
