(** Properties C111 (displayed states) and C112 (debug output). *)
From Coq Require Import String.
From Verif Require Import Base ModifyModel ModifyProperties AttrModel.
Open Scope string_scope.

(** * C111 *)
(** What a reader of the output takes a label to mean: the physical quantity, in
    volt, ampere, watt or VA. *)
Definition times (k : Q) (z : Q * Q) : Q * Q := (fst z * k, snd z * k).
Definition volt := times 500.              (* per unit to volt: base 500 V *)
Definition ampere := times (50000 / 500).  (* base current: 50 kVA at 500 V *)
Definition watt := times 50000.            (* base power 50 kVA *)
Definition z3 (v : values) a b c : Q * Q :=
  (fst (v a) + fst (v b) + fst (v c), snd (v a) + snd (v b) + snd (v c)).
Definition meaning (v : values) : list (string * cq * string) :=
  [("Vdc", volt (v "Vdc"), "V");
   ("Vta", volt (v "vta"), "V"); ("Vtb", volt (v "vtb"), "V"); ("Vtc", volt (v "vtc"), "V");
   ("Vtn", volt (z3 v "vta" "vtb" "vtc"), "V");
   ("Va", volt (v "va"), "V"); ("Vb", volt (v "vb"), "V"); ("Vc", volt (v "vc"), "V");
   ("Vn", volt (z3 v "va" "vb" "vc"), "V");
   ("Vtrms", volt (v "Vtrms"), "V"); ("Vpccrms", volt (v "Vrms"), "V");
   ("ia", ampere (v "ia"), "A"); ("ib", ampere (v "ib"), "A"); ("ic", ampere (v "ic"), "A");
   ("In", ampere (z3 v "ia" "ib" "ic"), "A"); ("Irms", ampere (v "Irms"), "A");
   ("Ppv", watt (v "Ppv"), "W"); ("S", watt (v "S"), "VA"); ("S_PCC", watt (v "S_PCC"), "VA");
   ("ma", v "ma", ""); ("mb", v "mb", ""); ("mc", v "mc", ""); ("m0", z3 v "ma" "mb" "mc", "")].
Definition faithful (v : values) (l : line) : Prop :=
  exists u, In (l_label l, l_val l, u) (meaning v) /\ (l_unit l = u \/ l_unit l = "").
(** the lines promised for each quantity *)
Definition promised (cls quantity : string) : list string :=
  if String.eqb quantity "voltage" then
    if three cls then ["Vdc"; "Vta"; "Vtb"; "Vtc"; "Vtn"; "Va"; "Vb"; "Vc"; "Vn"; "Vtrms"; "Vpccrms"] else ["Vdc"; "Vta"; "Va"; "Vtrms"; "Vpccrms"]
  else if String.eqb quantity "current" then if three cls then ["ia"; "ib"; "ic"; "In"; "Irms"] else ["ia"; "Irms"]
  else if String.eqb quantity "power" then ["Ppv"; "S"; "S_PCC"]
  else if three cls then ["ma"; "mb"; "mc"; "m0"] else ["ma"].
Definition quantities : list string := ["voltage"; "current"; "power"; "duty cycle"].

Ltac cases_cls H := cbn [In der_classes] in H; repeat (destruct H as [<-|H]; [|]); [..|contradiction].

Ltac member := cbn [In meaning l_label l_val]; repeat (first [left; reflexivity | right]).
Ltac shows := eexists; split; [solve [member]|cbn [l_unit]; solve [left; reflexivity | right; reflexivity]].

(** For every DER type, stand alone or not, every documented quantity is displayed
    without error; all lines show exactly the quantity their label names, except the
    three named here: in a three-phase voltage display the second terminal voltage
    is labelled Vtb instead of Vtc and Vn is the sum of the terminal voltages; and
    Irms carries the unit V. *)
Definition known_wrong (v : values) (quantity : string) (l : line) : Prop :=
  quantity = "voltage" /\ (l = Line "Vtb" (volt (v "vtc")) "V" \/ l = Line "Vn" (volt (z3 v "vta" "vtb" "vtc")) "V") \/
  quantity = "current" /\ l = Line "Irms" (ampere (v "Irms")) "V".
Theorem C111_displayed_states_partial :
  forall cls sa v q, In cls der_classes -> In q quantities ->
  exists out, show_PV_DER_states cls sa v q = (out, Ok tt) /\
    Forall (fun l => faithful v l \/ known_wrong v q l) out /\
    map l_label out = (if String.eqb q "voltage" && three cls
                       then ["Vdc"; "Vta"; "Vtb"; "Vtb"; "Vtn"; "Va"; "Vb"; "Vc"; "Vn"; "Vtrms"; "Vpccrms"]
                       else promised cls q) /\
    (three cls = false -> q <> "current" -> Forall (faithful v) out).
Proof.
  intros cls sa v q Hc Hq. unfold quantities in Hq. cbn [In] in Hq. cases_cls Hc;
    (repeat (destruct Hq as [<-|Hq]); [..|contradiction]);
    (eexists; split; [destruct sa; reflexivity|]; split; [|split; [reflexivity|]]);
    try (intros D; discriminate D); try (intros _ N; exfalso; apply N; reflexivity); try (intros _ _);
    repeat (apply Forall_cons || apply Forall_nil);
    first [shows | left; shows | right; unfold known_wrong; tauto].
Qed.
Print Assumptions C111_displayed_states_partial.

(** Every three-phase DER: the display has two lines labelled Vtb and none labelled
    Vtc, and the line Vn is wrong whenever the sums of the terminal and of the PCC
    voltages differ. *)
Theorem C111_three_phase_voltages_refuted :
  forall cls sa v, In cls der_classes -> three cls = true ->
  exists out, show_PV_DER_states cls sa v "voltage" = (out, Ok tt) /\
    (forall l, In l out -> l_label l <> "Vtc") /\
    (exists l, In l out /\ l_label l = "Vtb" /\ l_val l = volt (v "vtc")) /\
    (forall l, In l out -> l_label l = "Vn" -> ~ fst (z3 v "vta" "vtb" "vtc") == fst (z3 v "va" "vb" "vc") -> ~ faithful v l).
Proof.
  intros cls sa v Hc H3. cases_cls Hc; try discriminate H3; (eexists; split; [destruct sa; reflexivity|]);
    (split; [intros l Hl; cbn [In] in Hl; repeat (destruct Hl as [<-|Hl]; [cbn; discriminate|]); contradiction|]);
    (split; [eexists; split; [right; right; right; left; reflexivity|split; reflexivity]|]);
    intros l Hl El N (u & Hu & _); cbn [In] in Hl;
    repeat (destruct Hl as [<-|Hl]; [cbn [l_label] in El; try discriminate El|]); try contradiction;
    cbn [l_label l_val] in Hu; cbn [In meaning] in Hu;
    repeat (destruct Hu as [Hu|Hu]; [first [discriminate Hu|idtac]|]); try contradiction;
    apply N; apply (f_equal (fun x : string * cq * string => fst (snd (fst x)))) in Hu; cbn [volt times fst snd] in Hu;
    assert (E : fst (z3 v "va" "vb" "vc") * 500 == fst (z3 v "vta" "vtb" "vtc") * 500) by (rewrite Hu; reflexivity);
    lra.
Qed.
Print Assumptions C111_three_phase_voltages_refuted.

(** Which quantities can be read from a DER: phase a on every type, phases b and c
    exactly on the three-phase types, the stand-alone quantities exactly on
    stand-alone DERs, and the outer-loop state of the type. *)
Theorem C111_readable_quantities :
  forall cls sa, In cls der_classes ->
  let readable x := exists v : values, get cls sa v x = Ok (v x) in
  (forall x, In x ["Vdc"; "Ppv"; "vta"; "va"; "ia"; "xa"; "ua"; "ia_ref"; "t_iref"; "ma"; "S"; "S_PCC"; "Vtrms"; "Vrms"; "Irms"; "xQ"; "xPLL"; "wte"; "vd"; "vq"; "we"; "winv"; "Vdc_ref"; "Q_ref"] -> readable x) /\
  (forall x, In x ["vtb"; "vtc"; "vb"; "vc"; "ib"; "ic"; "xb"; "xc"; "ub"; "uc"; "mb"; "mc"; "ib_ref"; "ic_ref"; "vat"; "vbt"; "vct"; "v0"] -> (readable x <-> three cls = true)) /\
  (forall x, In x ["valpha"; "vbeta"] -> (readable x <-> three cls = false)) /\
  (forall x, In x ["iaload1"; "S_G"; "S_load1"] -> (readable x <-> sa = true)) /\
  (forall x, In x ["ibload1"; "icload1"] -> (readable x <-> sa = true /\ three cls = true)) /\
  (readable "xP" <-> In cls ["SolarPVDERSinglePhaseConstantVdc"; "SolarPVDERThreePhaseConstantVdc"]) /\
  (readable "xDC" <-> ~ In cls ["SolarPVDERSinglePhaseConstantVdc"; "SolarPVDERThreePhaseConstantVdc"]).
Proof.
  intros cls sa Hc readable.
  assert (R : forall x, readable x <-> has cls sa x = true).
  { intros x. unfold readable, get. destruct (has cls sa x); split; intros H; auto; try discriminate.
    - exists (fun _ => (0, 0)). reflexivity.
    - destruct H as [v D]. discriminate D. }
  split; [|split; [|split; [|split; [|split; [|split]]]]].
  1: intros x Hx; apply R.
  2-5: intros x Hx; rewrite R.
  1-5: cases_cls Hc; destruct sa; cbn [In] in Hx;
    (repeat (destruct Hx as [<-|Hx]; [solve [vm_compute; intuition congruence]|]); contradiction).
  1-2: rewrite R; cases_cls Hc; destruct sa; vm_compute; intuition congruence.
Qed.
Print Assumptions C111_readable_quantities.
Theorem C111_unknown_quantity :
  forall cls sa v q, ~ In q quantities -> show_PV_DER_states cls sa v q = ([], Raise ValueError).
Proof.
  intros cls sa v q H. unfold show_PV_DER_states.
  repeat match goal with |- context [String.eqb q ?a] =>
    let E := fresh in destruct (String.eqb q a) eqn:E; [apply String.eqb_eq in E; subst; exfalso; apply H; cbn; tauto|] end.
  reflexivity.
Qed.
Print Assumptions C111_unknown_quantity.

(** balanced terminal voltages, but a PCC voltage unbalanced by the grid *)
Definition ex_values : values := fun x =>
  if String.eqb x "vta" then (1, 0) else if String.eqb x "vtb" then (-(1#2), -(1#2)) else if String.eqb x "vtc" then (-(1#2), 1#2)
  else if String.eqb x "va" then (9#10, 0) else if String.eqb x "vb" then (-(1#2), -(1#2)) else if String.eqb x "vc" then (-(1#2), 1#2)
  else (1#10, 0).
Example C111_hypotheses_met :
  let v := ex_values in ~ fst (z3 v "vta" "vtb" "vtc") == fst (z3 v "va" "vb" "vc") /\
  exists out, show_PV_DER_states "SolarPVDERThreePhase" true v "voltage" = (out, Ok tt) /\
    Forall2 (fun l x => fst (l_val l) == x) out [50; 500; -(250); -(250); 0; 450; -(250); -(250); 0; 50; 50].
Proof.
  cbv zeta. split; [vm_compute; discriminate|]. eexists. split; [reflexivity|]. repeat constructor; vm_compute; reflexivity.
Qed.

(** * C112 *)
(** With DEBUG_SIMULATION and any of the power, current and PLL flags set in a
    stand-alone simulation (PLL in any simulation), every evaluation has exactly the
    outcome it has without: same next state, same derivatives, same exceptions. *)
Theorem C112_debug_output_harmless_partial :
  forall St Y (rhs : St -> Q -> St * res Y) cls sa f s t, In cls der_classes ->
  d_volt f = false -> d_ctrl f = false -> (sa = true \/ d_curr f = false /\ d_pow f = false) ->
  ODE_model cls sa true f rhs s t = ODE_model cls sa false f rhs s t.
Proof.
  intros St Y rhs cls sa [a b c d e] s t Hc Ha Hd Hs. cbn [d_volt d_ctrl d_curr d_pow] in *. subst a d.
  unfold ODE_model. destruct (rhs s t) as [s1 [y|x]]; [|reflexivity].
  assert (E : debug_simulation cls sa (DFlags false b c false e) = Ok tt); [|now rewrite E].
  destruct Hs as [->|[-> ->]].
  - cases_cls Hc; destruct b, c, e; reflexivity.
  - cases_cls Hc; destruct sa, e; reflexivity.
Qed.
Print Assumptions C112_debug_output_harmless_partial.

(** The voltage and controller flags end every simulation of every DER type at its
    first evaluation; so do the current and power flags unless it is stand alone. *)
Theorem C112_debug_output_refuted :
  forall St Y (rhs : St -> Q -> St * res Y) cls sa f s t s1 y, In cls der_classes -> rhs s t = (s1, Ok y) ->
  d_volt f = true \/ d_ctrl f = true \/ sa = false /\ (d_curr f = true \/ d_pow f = true) ->
  ODE_model cls sa true f rhs s t = (s1, Raise AttributeError) /\ ODE_model cls sa false f rhs s t = (s1, Ok y).
Proof.
  intros St Y rhs cls sa [a b c d e] s t s1 y Hc Hr H. cbn [d_volt d_ctrl d_curr d_pow] in H.
  unfold ODE_model. rewrite Hr. split; [|reflexivity].
  assert (E : debug_simulation cls sa (DFlags a b c d e) = Raise AttributeError); [|now rewrite E].
  cases_cls Hc; destruct sa, a, b, c, d, e; try reflexivity; exfalso; intuition discriminate.
Qed.
Print Assumptions C112_debug_output_refuted.

(** the flags of the README example *)
Example C112_hypotheses_met :
  let rhs := fun (s : Q) (t : Q) => (t, Ok (s + t)) in
  ODE_model "SolarPVDERThreePhase" true true (DFlags false false true false false) rhs 0 1 = (1, Ok (0 + 1)) /\
  ODE_model "SolarPVDERThreePhase" true true (DFlags true false true true false) rhs 0 1 = (1, Raise AttributeError).
Proof. split; reflexivity. Qed.

(** * C113, the single-phase types *)
(** Vabrms_calc is a method of the single-phase DERs too, where it always raises
    AttributeError; on the three-phase types it never does. *)
Theorem C113_single_phase_refuted :
  forall A cls sa v (rms : cq -> cq -> A), In cls der_classes ->
  Vabrms_method cls sa v rms = (if three cls then Ok (rms (v "va") (v "vb")) else Raise AttributeError) /\
  (three cls = false -> defined_for cls "Vabrms_calc" = true).
Proof.
  intros A cls sa v rms Hc. cases_cls Hc; destruct sa; (split; [reflexivity|intros D; try discriminate D; vm_compute; reflexivity]).
Qed.
Print Assumptions C113_single_phase_refuted.
