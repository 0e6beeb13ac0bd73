(** Model of the plotting interface SimulationResults,
    /repo/pvder/simulation_utilities.py:21-360: which series are drawn, under
    which label, in which unit.  matplotlib itself, titles, fonts and files are
    left out.  A series is a list of complex numbers (pairs of rationals); a real
    series has zero imaginary parts. *)
From Coq Require Import String.
From Verif Require Import Base SimModel.
Open Scope string_scope.
Open Scope list_scope.
Open Scope Q_scope.

Definition cq : Type := Q * Q.
Definition series := list cq.

(** grid_components.py:13-18: Vbase, Sbase, Ibase = Sbase/Vbase (class attributes
    that DynamicSimulation inherits through Grid) *)
Definition pVbase : Q := 500.
Definition pSbase : Q := 50000.
Definition pIbase : Q := pSbase / pVbase.

(** The simulation object: its DER's model type and standAlone flag, loop_mode,
    t_t and _t_t, the attributes X_t and the attributes _X_t. *)
Record psim := PSim { ps_type : mtype; ps_alone : bool; ps_loop : bool;
  ps_t : option (list Q); ps_st : option (list Q);
  ps_attr : string -> option series; ps_stored : string -> option series }.

(** type(DER_model).__name__ *)
Definition class_name (m : mtype) : string :=
  match m with
  | MSingle => "SolarPVDERSinglePhase" | MSingleC => "SolarPVDERSinglePhaseConstantVdc"
  | MThree => "SolarPVDERThreePhase" | MThreeNV => "SolarPVDERThreePhaseNoVrmsFilter"
  | MThreeC => "SolarPVDERThreePhaseConstantVdc" | MBal => "SolarPVDERThreePhaseBalanced"
  | MNumba => "SolarPVDERThreePhaseNumba"
  end.

(** simulation_utilities.py:34, available_plot_types *)
Definition available : list string :=
  ["power"; "active_power"; "active_power_Ppv_Pac_PCC"; "active_power_Pac_PCC"; "reactive_power";
   "reactive_power_Q_PCC"; "reactive_power_Q_PCC_smoothed"; "voltage"; "voltage_Vdc"; "voltage_HV";
   "voltage_HV_imbalance"; "voltage_LV"; "voltage_Vpcclv"; "voltage_Vpcclv_smoothed"; "current";
   "phase_angle"; "frequency"; "duty_cycle"; "voltage_Vpcclv_all_phases"].

(** One element of plot_values: an attribute, its .real (or the real series
    itself) or .imag, times a multiplier; or a difference of two attributes. *)
Inductive mult := MV | MI | MS | M1.
Inductive qty := QRe (a : string) (u : mult) | QIm (a : string) (u : mult) | QDiff (a b : string).

(** change_units, 69-83 *)
Definition multiplier (per_unit : bool) (u : mult) : Q :=
  if per_unit then 1 else match u with MV => pVbase | MI => pIbase | MS => pSbase | M1 => 1 end.

(** dynamic_simulation.py:886-928, invert_arrays: X_t = _X_t for the listed series *)
Definition inverted (s : psim) : res psim :=
  match ps_st s with
  | None => Raise AttributeError
  | Some t =>
    if forallb (fun k => match ps_stored s k with Some _ => true | None => false end) (invert_list (ps_type s))
    then Ok (PSim (ps_type s) (ps_alone s) (ps_loop s) (Some t) (ps_st s)
               (fun k => if existsb (String.eqb k) (invert_list (ps_type s)) then ps_stored s k else ps_attr s k)
               (ps_stored s))
    else Raise AttributeError
  end.

Definition aval (s : psim) (k : string) : res series :=
  match ps_attr s k with Some l => Ok l | None => Raise AttributeError end.
Definition minus (a b : series) : res (list Q) :=
  if Nat.eqb (List.length a) (List.length b)
  then Ok (map (fun p => fst (fst p) - fst (snd p)) (combine a b)) else Raise ValueError.
Definition qval (s : psim) (pu : bool) (q : qty) : res (list Q) :=
  match q with
  | QRe a u => bindR (aval s a) (fun l => Ok (map (fun c => multiplier pu u * fst c) l))
  | QIm a u => bindR (aval s a) (fun l => Ok (map (fun c => multiplier pu u * snd c) l))
  | QDiff a b => bindR (aval s a) (fun x => bindR (aval s b) (minus x))
  end.

(** The branches of group_quantities_for_plotting, 117-278: the quantities and
    the labels, with the check for stand-alone mode.  A type with no branch leaves
    plot_title unbound (line 280). *)
Definition branch (s : psim) (ty : string) : res (list qty * list string) :=
  let al := ps_alone s in
  let only_alone (r : list qty * list string) : res (list qty * list string) :=
    if al then Ok r else Raise ValueError in
  let three := String.eqb (class_name (ps_type s)) "SolarPV_DER_ThreePhase" in
  if String.eqb ty "voltage" then
    Ok ([QRe "Vdc_t" MV; QRe "Vtrms_t" MV; QRe "Vrms_t" MV; QRe "vdg_t" MV] ++
        (if al then [QRe "Vhvrms_t" MV; QRe "Vgrms_t" MV] else []),
        ["$V_{DC}$"; "$v^{inv}_{rms}$"; "$v^{PCC-LV}_{rms}$"; "$v^{PCC-HV}_{rms}$"; "$v^{grid}_{rms}$"; "$v^{grid}_{d}$"])
  else if String.eqb ty "voltage_Vdc" then Ok ([QRe "Vdc_t" MV], ["$V_{DC}$"])
  else if String.eqb ty "voltage_LV" then
    Ok ([QRe "Vtrms_t" MV; QRe "Vrms_t" MV], ["$v^{inv}_{rms}$"; "$v^{PCC-LV}_{rms}$"])
  else if String.eqb ty "voltage_Vpcclv" then Ok ([QRe "Vrms_t" MV], ["$v^{PCC-LV}_{rms}$"])
  else if String.eqb ty "voltage_Vpcclv_all_phases" then
    Ok ([QRe "Varms_t" MV] ++ (if three then [QRe "Vbrms_t" MV; QRe "Vcrms_t" MV] else []),
        ["$v^{PCC-LV}_{arms}$"] ++ (if three then ["$v^{PCC-LV}_{brms}$"; "$v^{PCC-LV}_{crms}$"] else []))
  else if String.eqb ty "voltage_HV" then
    only_alone ([QRe "Vhvrms_t" MV; QRe "Vgrms_t" MV], ["$v^{PCC-HV}_{rms}$"; "$v^{grid}_{rms}$"])
  else if String.eqb ty "current" then Ok ([QRe "Irms_t" MI], ["$i^{inv}_{rms}$"])
  else if String.eqb ty "power" then
    Ok ([QRe "Ppv_t" MS; QRe "S_t" MS; QIm "S_t" MS; QRe "S_PCC_t" MS; QIm "S_PCC_t" MS] ++
        (if al then [QRe "S_load1_t" MS; QRe "S_G_t" MS] else []),
        ["$P^{PV}_{DC}$"; "$P^{inv}_{AC}$"; "$Q^{inv}$"; "$P^{PCC-LV}_{AC}$"; "$Q^{PCC-LV}$"; "$P^{load1}_{AC}$"; "$P^{G}_{AC}$"])
  else if String.eqb ty "active_power" then
    Ok ([QRe "Ppv_t" MS; QRe "S_t" MS; QRe "S_PCC_t" MS] ++
        (if al then [QRe "S_load1_t" MS; QRe "S_G_t" MS] else []),
        ["$P^{PV}_{DC}$"; "$P^{inv}_{AC}$"; "$P^{PCC-LV}_{AC}$"; "$P^{load1}_{AC}$"; "$P^{G}_{AC}$"])
  else if String.eqb ty "active_power_Ppv_Pac_PCC" then
    Ok ([QRe "Ppv_t" MS; QRe "S_PCC_t" MS], ["$P^{PV}_{DC}$"; "$P^{PCC-LV}_{ac}$"])
  else if String.eqb ty "active_power_Pac_PCC" then Ok ([QRe "S_PCC_t" MS], ["$P^{PCC-LV}_{ac}$"])
  else if String.eqb ty "reactive_power" then
    Ok ([QIm "S_t" MS; QIm "S_PCC_t" MS] ++ (if al then [QIm "S_load1_t" MS; QIm "S_G_t" MS] else []),
        ["$Q^{inv}$"; "$Q^{PCC-LV}$"] ++ (if al then ["$Q^{load1}$"; "$Q^{G}$"] else []))
  else if String.eqb ty "reactive_power_Q_PCC" then Ok ([QIm "S_PCC_t" MS], ["$Q^{PCC-LV}$"])
  else if String.eqb ty "phase_angle" then
    only_alone ([QRe "phi_at_t" M1; QRe "phi_a_t" M1; QRe "phi_ag_t" M1; QDiff "phi_a_t" "phi_ag_t"],
      ["$\phi^{inv}_{a}$"; "$\phi^{PCC-LV}_{a}$"; "$\phi^{grid}_{a}$"; "$\phi^{PCC-LV}_{a}-\phi^{grid}_{a}$"])
  else if String.eqb ty "frequency" then
    only_alone ([QRe "wgrid_t" M1; QRe "we_t" M1], ["$\omega_{grid}$"; "$\omega_{PLL}$"])
  else if String.eqb ty "duty_cycle" then
    Ok ([QRe "ma_absolute_t" M1] ++ (if three then [QRe "mb_absolute_t" M1; QRe "mc_absolute_t" M1] else []),
        ["ma"] ++ (if three then ["mb"; "mc"] else []))
  else Raise UnboundLocalError.

Fixpoint collect {A B} (f : A -> res B) (l : list A) : res (list B) :=
  match l with [] => Ok [] | x :: r => bindR (f x) (fun y => bindR (collect f r) (fun ys => Ok (y :: ys))) end.

(** lines 285-286: the size assertion *)
Definition sizes_ok (n : nat) (vs : list (list Q)) : bool :=
  forallb (fun v => Nat.eqb (List.length v) n && Nat.ltb 1 n) vs.

(** group_quantities_for_plotting, 86-290: time axis, values, labels (the y label
    is left out; it depends on per_unit only) *)
Definition group (s : psim) (pu : bool) (ty : string) : res (list Q * list (list Q) * list string) :=
  if negb (existsb (String.eqb ty) available) then Raise ValueError
  else bindR (if ps_loop s then inverted s else Ok s) (fun s1 =>
  bindR (match ps_t s1 with Some t => Ok t | None => Raise AttributeError end) (fun time =>
  bindR (branch s1 ty) (fun b =>
  bindR (collect (qval s1 pu) (fst b)) (fun vs =>
  if sizes_ok (List.length time) vs then Ok (time, vs, snd b) else Raise AssertionError)))).

(** A curve on the figure: its label, its time values and its values. *)
Record curve := Curve { cv_label : string; cv_t : list Q; cv_y : list Q }.

(** plot_multiple, 307-316: the assertion, then one curve per value list *)
Fixpoint curves (ts vs : list (list Q)) (ls : list string) : list curve :=
  match ts, vs, ls with
  | t :: ts', v :: vs', l :: ls' => Curve l t v :: curves ts' vs' ls'
  | _, _, _ => []
  end.
Definition plot_multiple (ts vs : list (list Q)) (ls : list string) : res (list curve) :=
  if Nat.eqb (List.length vs) (List.length ts) && Nat.eqb (List.length ts) (List.length ls)
  then Ok (curves ts vs ls) else Raise AssertionError.

(** plot_DER_simulation, 292-304 *)
Definition plot (s : psim) (pu : bool) (ty : string) : res (list curve) :=
  bindR (group s pu ty) (fun '(t, vs, ls) => plot_multiple (repeat t (List.length vs)) vs ls).

(** compare_with_external, 346-360 *)
Definition compare (s : psim) (pu : bool) (et ev : list (list Q)) (el : list string) (ty : string) : res (list curve) :=
  if Nat.eqb (List.length ev) (List.length el) then
    bindR (group s pu ty) (fun '(t, vs, ls) =>
      plot_multiple (repeat t (List.length vs) ++ et) (vs ++ ev) (ls ++ el))
  else Raise AssertionError.
