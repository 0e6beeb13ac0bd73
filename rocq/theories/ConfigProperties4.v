(** Properties C42, C77, C78, C80: initial states, arguments without effect. *)
From Verif Require Import Base ConfigValues ConfigData ConfigModel ConfigSpec ConfigLemmas ConfigProofs ConfigProperties
  ConfigProperties2 ConfigProperties3 ConfigStates.
From Verif Require SimModel.
Open Scope string_scope.

(** ** C78 *)
(** Documented keyword arguments. *)
Definition idle_names : list string :=
  ["derId"; "powerRating"; "VrmsRating"; "derConfig"; "ia0"; "xa0"; "ua0"; "xDC0"; "xP0"; "xQ0"; "xPLL0"; "wte0"].
Definition agree (a a' : dict) : Prop := forall n, ~ In n idle_names -> dget n a = dget n a'.

Lemma foldR_ext {A B} (f g : A -> B -> res A) l : (forall a b, In b l -> f a b = g a b) ->
  forall a, foldR f a l = foldR g a l.
Proof.
  induction l as [|b l IH]; intros H a; [reflexivity|]. cbn [foldR]. rewrite H by now left.
  destruct (g a b); cbn [bindR]; auto. apply IH. intros; apply H; now right.
Qed.
Definition not_idle (n : string) : bool := negb (instr n idle_names).
Lemma not_idle_iff n : not_idle n = true -> ~ In n idle_names.
Proof. unfold not_idle. rewrite <- instr_iff. destruct (instr n idle_names); cbn; congruence. Qed.

Lemma agree_arguments cfg k k' : agree k k' -> agree (get_DER_arguments cfg k) (get_DER_arguments cfg k').
Proof.
  intros H n Hn. rewrite !get_DER_arguments_spec. destruct (dget n DER_argument_spec) as [[df ts]|]; auto.
  unfold contribution. now rewrite H.
Qed.
Lemma agree_parameter t cfg parent a a' comp p : agree a a' -> ~ In p idle_names ->
  update_DER_parameter t cfg parent a comp p = update_DER_parameter t cfg parent a' comp p.
Proof. intros H Hp. unfold update_DER_parameter. now rewrite H. Qed.
Lemma agree_design model t cfg parent a a' : dget model DER_design_template = Some t -> agree a a' ->
  update_DER_config t cfg parent a = update_DER_config t cfg parent a'.
Proof.
  intros Hm H.
  assert (A : forallb (fun kv => forallb (fun c => not_idle (fst c) && forallb not_idle (params_of (snd c))) (snd kv))
     DER_design_template = true) by (vm_compute; reflexivity).
  apply dget_In in Hm. rewrite forallb_forall in A. apply A in Hm. cbn [snd] in Hm. rewrite forallb_forall in Hm.
  unfold update_DER_config. destruct (check_DER_config t cfg); cbn [bindR]; [|reflexivity].
  rewrite (foldR_ext (update_component t cfg parent a) (update_component t cfg parent a')).
  2: { intros out [n c] Hin. apply Hm in Hin. cbn [fst snd] in Hin. apply andb_true_iff in Hin as [H1 H2].
       unfold update_component. rewrite (H n) by now apply not_idle_iff. destruct (dget n a'); auto.
       rewrite (foldR_ext _ (fun acc p => do v <- update_DER_parameter t cfg parent a' n p; Ok (dset p v acc))); auto.
       intros acc p Hp. rewrite forallb_forall in H2. apply H2 in Hp.
       rewrite (agree_parameter t cfg parent a a') by (auto; now apply not_idle_iff). reflexivity. }
  destruct (foldR _ _ t) as [d|]; cbn [bindR]; [|reflexivity].
  assert (E : forall l d, (forall rt, In rt l -> not_idle (fst rt) = true) ->
     fold_left (update_RT_component cfg parent a) l d = fold_left (update_RT_component cfg parent a') l d).
  { induction l as [|[n v] l IH]; intros d0 Hl; [reflexivity|]. cbn [fold_left].
    assert (X : update_RT_component cfg parent a d0 (n, v) = update_RT_component cfg parent a' d0 (n, v)).
    { unfold update_RT_component. rewrite (H n); auto. apply not_idle_iff. apply (Hl (n, v)). now left. }
    rewrite X. apply IH. intros; apply Hl; now right. }
  rewrite E; [reflexivity|]. intros rt Hrt.
  assert (F : forallb (fun rt => not_idle (fst rt)) RT_components = true) by (vm_compute; reflexivity).
  rewrite forallb_forall in F. now apply F.
Qed.

Lemma same_names l : forallb not_idle l = true -> forall a a', agree a a' -> forall n, In n l -> dget n a = dget n a'.
Proof. intros H a a' Ha n Hn. apply Ha. rewrite forallb_forall in H. now apply not_idle_iff, H. Qed.

Ltac same H n := rewrite (H n) by (apply not_idle_iff; reflexivity).

(** The documented arguments powerRating, VrmsRating, derConfig, ia0, ... have no
    effect: whatever their values (of any type), the constructor accepts or
    rejects alike and leads to the same design, ride-through settings, grid
    measurements and initial states. *)
Theorem C78_arguments_without_effect_refuted :
  forall model file id kwargs kwargs', agree kwargs kwargs' ->
  construct model file id kwargs = construct model file id kwargs'.
Proof.
  intros model file id k k' H. unfold construct.
  assert (S : match setup_DER model file id k, setup_DER model file id k' with
     | Ok s, Ok s' => s_design s = s_design s' /\ s_RT s = s_RT s' /\ agree (s_args s) (s_args s')
     | Raise e, Raise e' => e = e' | _, _ => False end).
  { unfold setup_DER. destruct (create_DER_config model file id) as [[cfg parent]|]; cbn [bindR]; [|reflexivity].
    pose proof (agree_arguments cfg k k' H) as G.
    set (a := get_DER_arguments cfg k) in *. set (a' := get_DER_arguments cfg k') in *.
    unfold dsub. same G "identifier". same G "verbosity".
    destruct (dget "identifier" a') as [idn|]; cbn [bindR]; [|reflexivity].
    destruct (dget "verbosity" a') as [vb|]; cbn [bindR]; [|reflexivity].
    destruct (initialize_logger vb); cbn [bindR]; [|reflexivity].
    destruct (check_model_type cfg parent); cbn [bindR]; [|reflexivity].
    unfold create_template, dsub. destruct (dget model DER_design_template) as [t|] eqn:Et; cbn [bindR]; [|reflexivity].
    rewrite (agree_design model t cfg parent a a') by auto.
    destruct (update_DER_config t cfg parent a') as [d|]; cbn [bindR]; [|reflexivity].
    destruct (check_basic_specs d); cbn [bindR]; [|reflexivity].
    destruct (update_RT_config file d) as [rt|]; cbn [bindR]; [|reflexivity].
    destruct (check_RT_config rt); cbn [bindR]; [|reflexivity]. cbn [s_design s_RT s_args]. auto. }
  assert (C : match configure_DER model file id k, configure_DER model file id k' with
     | Ok b, Ok b' => s_design (b_setup b) = s_design (b_setup b') /\ s_RT (b_setup b) = s_RT (b_setup b') /\
         agree (s_args (b_setup b)) (s_args (b_setup b')) /\ b_nODE b = b_nODE b' /\ b_nphases b = b_nphases b' /\
         b_unbalanced b = b_unbalanced b' /\ b_standAlone b = b_standAlone b' /\ b_steady b = b_steady b' /\ b_grid b = b_grid b'
     | Raise e, Raise e' => e = e' | _, _ => False end).
  { unfold configure_DER. destruct (setup_DER model file id k) as [s|], (setup_DER model file id k') as [s'|]; cbn [bindR];
      try tauto. destruct S as (S1 & S2 & G). rewrite S1.
    destruct (dsub "basic_options" (s_design s')) as [bo|]; cbn [bindR]; [|reflexivity].
    destruct (pget "Sinsol" bo); cbn [bindR]; [|reflexivity].
    destruct (initialize_basic_specs model) as [[[n p] u]|]; cbn [bindR]; [|reflexivity].
    destruct (initialize_basic_options (s_design s')); cbn [bindR]; [|reflexivity].
    unfold initialize_flags, dsub. same G "standAlone". same G "steadyStateInitialization". same G "allowUnbalancedM".
    destruct (dget "standAlone" (s_args s')) as [sa|]; cbn [bindR]; [|reflexivity].
    destruct (dget "steadyStateInitialization" (s_args s')) as [ss|]; cbn [bindR]; [|reflexivity].
    destruct (dget "allowUnbalancedM" (s_args s')) as [am|]; cbn [bindR]; [|reflexivity].
    unfold attach_grid_model, initialize_grid_measurements, dmem, need.
    same G "gridModel". same G "gridFrequency". same G "gridVoltagePhaseA". same G "gridVoltagePhaseB". same G "gridVoltagePhaseC".
    destruct (truthy sa).
    - destruct (dget "gridModel" (s_args s')); cbn [bindR]; [|reflexivity]. cbn [b_setup b_nODE b_nphases b_unbalanced b_standAlone b_steady b_grid]. rewrite S1. auto 12.
    - cbn [bindR].
      match goal with |- context [bindR ?x _] => destruct x as [g|]; cbn [bindR]; [|reflexivity] end.
      cbn [b_setup b_nODE b_nphases b_unbalanced b_standAlone b_steady b_grid]. rewrite S1. auto 12. }
  unfold create_DER_model.
  destruct (existsb (String.eqb model) ["SolarPVDERThreePhaseNoVrmsFilter"; "SolarPVDERThreePhaseConstantVdc"]); [reflexivity|].
  destruct (existsb (String.eqb model) _); [|reflexivity].
  destruct (configure_DER model file id k) as [b|], (configure_DER model file id k') as [b'|]; cbn [bindR]; try tauto; [|congruence].
  destruct C as (C1 & C2 & G & C3 & C4 & C5 & C6 & C7 & C8).
  rewrite C1, C2, C3, C4, C5, C6, C7, C8.
  assert (I : initialize_states model (s_design (b_setup b')) (s_args (b_setup b)) (b_steady b') =
              initialize_states model (s_design (b_setup b')) (s_args (b_setup b')) (b_steady b')).
  { unfold initialize_states, init_complex, init_optional, init_number.
    same G "ia". same G "xa". same G "ua". same G "xDC". same G "xP". same G "xQ". same G "xPLL". same G "wte". reflexivity. }
  now rewrite I.
Qed.
Print Assumptions C78_arguments_without_effect_refuted.

(** The other documented arguments do count: for each there are a configuration and a
    value with which the constructor ends differently from without it.  (identifier
    only enters the instance name and allowUnbalancedM the steady-state search, see
    C85; neither is part of [construct].) *)
Definition effective_names : list string :=
  ["Srated"; "Vrmsrated"; "Vdcrated"; "gridModel"; "verbosity"; "gridVoltagePhaseA"; "gridVoltagePhaseB";
   "gridVoltagePhaseC"; "gridFrequency"; "standAlone"; "steadyStateInitialization"].
Theorem C78_effective_arguments_partial :
  forall name, In name effective_names ->
  exists model file id kwargs v,
    construct model file id ((name, v) :: kwargs) <> construct model file id kwargs.
Proof.
  set (g := [("gridModel", VGrid)]).
  set (three := fun l : list string => ([("standAlone", VBool false); ("gridFrequency", VFloat 60)] ++ map (fun n => (n, VComplex 1 0)) l)%list).
  intros name H. cbn [In effective_names] in H.
  decompose [or] H; subst; try contradiction; exists "SolarPVDERThreePhase", file_ex, "50".
  - exists g, (VFloat 10000). intros X. vm_compute in X. discriminate.
  - exists g, (VFloat 150). intros X. vm_compute in X. discriminate.
  - exists g, (VFloat 600). intros X. vm_compute in X. discriminate.
  - exists [], VGrid. intros X. vm_compute in X. discriminate.
  - exists g, (VStr "LOUD"). intros X. vm_compute in X. discriminate.
  - exists (three ["gridVoltagePhaseB"; "gridVoltagePhaseC"]), (VComplex 1 0). intros X. vm_compute in X. discriminate.
  - exists (three ["gridVoltagePhaseA"; "gridVoltagePhaseC"]), (VComplex 1 0). intros X. vm_compute in X. discriminate.
  - exists (three ["gridVoltagePhaseA"; "gridVoltagePhaseB"]), (VComplex 1 0). intros X. vm_compute in X. discriminate.
  - exists [("standAlone", VBool false); ("gridVoltagePhaseA", VComplex 1 0); ("gridVoltagePhaseB", VComplex 1 0); ("gridVoltagePhaseC", VComplex 1 0)], (VFloat 60).
    intros X. vm_compute in X. discriminate.
  - exists [("gridFrequency", VFloat 60); ("gridVoltagePhaseA", VComplex 1 0); ("gridVoltagePhaseB", VComplex 1 0); ("gridVoltagePhaseC", VComplex 1 0)], (VBool false).
    intros X. vm_compute in X. discriminate.
  - exists g, (VBool false). intros X. vm_compute in X. discriminate.
Qed.
Print Assumptions C78_effective_arguments_partial.

(** The two rating arguments that are not among them do count: Srated is the
    rating of the DER. *)
Example C78_hypotheses_met :
  agree [("gridModel", VGrid); ("powerRating", VFloat 10000); ("ia0", VComplex 1 0)] [("gridModel", VGrid)] /\
  (exists o, construct "SolarPVDERThreePhase" file_ex "50" [("gridModel", VGrid); ("powerRating", VFloat 10000)] = Ok o /\
             entry (o_design o) "inverter_ratings" "Srated" (VFloat 50000)) /\
  (exists o, construct "SolarPVDERThreePhase" file_ex "50" [("gridModel", VGrid); ("Srated", VFloat 10000)] = Ok o /\
             entry (o_design o) "inverter_ratings" "Srated" (VFloat 10000)).
Proof.
  split; [|split].
  - intros n Hn. cbn [dget]. destruct (String.eqb n "gridModel"); auto.
    destruct (String.eqb n "powerRating") eqn:E; [apply String.eqb_eq in E; subst; exfalso; apply Hn; cbn; tauto|].
    destruct (String.eqb n "ia0") eqn:E'; [apply String.eqb_eq in E'; subst; exfalso; apply Hn; cbn; tauto|]. reflexivity.
  - eexists. split; [vm_compute; reflexivity|]. eexists; split; reflexivity.
  - eexists. split; [vm_compute; reflexivity|]. eexists; split; reflexivity.
Qed.

(** ** C42 *)
Definition initial_arguments : list string := ["ia0"; "xa0"; "ua0"; "xDC0"; "xP0"; "xQ0"; "xPLL0"; "wte0"].
(** Supplying an initial state as keyword argument changes nothing, and the DER
    does not start from it. *)
Theorem C42_initial_state_argument_refuted :
  (forall model file id kwargs name v, In name initial_arguments ->
     construct model file id ((name, v) :: kwargs) = construct model file id kwargs) /\
  (exists o st, construct "SolarPVDERThreePhaseBalanced" file_ex "50"
        [("ia0", VComplex 1 0); ("gridModel", VGrid); ("steadyStateInitialization", VBool false)] = Ok o /\
     o_states o = Some st /\ dget "iaR" st = Some (SRe (CGiven (VComplex 0 0)))).
Proof.
  split.
  - intros model file id kwargs name v Hin. apply C78_arguments_without_effect_refuted.
    intros n Hn. cbn [dget]. destruct (String.eqb n name) eqn:E; auto. apply String.eqb_eq in E. subst.
    exfalso. apply Hn. cbn in Hin |- *. tauto.
  - do 2 eexists. split; [vm_compute; reflexivity|]. split; reflexivity.
Qed.
Print Assumptions C42_initial_state_argument_refuted.

Lemma construct_inv model file id kwargs o : construct model file id kwargs = Ok o ->
  exists s, setup_DER model file id kwargs = Ok s /\ o_design o = s_design s /\
    initialize_states model (s_design s) (s_args s) (o_steady o) = Ok (o_states o) /\
    (forall n, ~ In n (map fst DER_argument_spec) -> dget n (s_args s) = None).
Proof.
  unfold construct. destruct (create_DER_model model file id kwargs) as [b|] eqn:E; cbn [bindR]; [|discriminate].
  destruct (initialize_states _ _ _ _) as [st|] eqn:Ei; cbn [bindR]; [|discriminate].
  intros H. injection H as <-. cbn [o_design o_steady o_states].
  assert (C : configure_DER model file id kwargs = Ok b).
  { unfold create_DER_model in E. destruct (existsb _ ["SolarPVDERThreePhaseNoVrmsFilter"; _]); [discriminate|].
    destruct (existsb _ _); [auto|discriminate]. }
  unfold configure_DER in C. destruct (setup_DER model file id kwargs) as [s|] eqn:Es; cbn [bindR] in C; [|discriminate].
  assert (Hb : b_setup b = s).
  { destruct (dsub "basic_options" (s_design s)) as [bo|]; cbn [bindR] in C; [|discriminate].
    destruct (pget "Sinsol" bo); cbn [bindR] in C; [|discriminate].
    destruct (initialize_basic_specs model) as [[[nn pp] uu]|]; cbn [bindR] in C; [|discriminate].
    destruct (initialize_basic_options (s_design s)); cbn [bindR] in C; [|discriminate].
    destruct (initialize_flags (s_args s)) as [[[sa ss] am]|]; cbn [bindR] in C; [|discriminate].
    destruct (attach_grid_model sa (s_args s)); cbn [bindR] in C; [|discriminate].
    destruct (initialize_grid_measurements _ _ _ _); cbn [bindR] in C; [|discriminate].
    injection C as <-. reflexivity. }
  subst s. exists (b_setup b). split; [reflexivity|]. split; [reflexivity|]. split; [exact Ei|].
  intros n Hn. apply setup_inv in Es as (t & cfg & _ & _ & _ & _ & Ha & _). rewrite Ha, get_DER_arguments_spec.
  apply dget_nokey in Hn. now rewrite Hn.
Qed.

Lemma init_complex_ok design args name re im v : init_complex design args name re im = Ok v -> dget name args = None ->
  exists r i r' i', entry design "initial_states" re r /\ entry design "initial_states" im i /\
    num r = Ok r' /\ num i = Ok i' /\ v = VComplex r' i'.
Proof.
  unfold init_complex, dsub. intros H Ha. rewrite Ha in H. revert H.
  destruct (dget "initial_states" design) as [c|] eqn:Ec; cbn [bindR]; [|discriminate].
  destruct c; cbn [pget bindR]; try discriminate.
  destruct (dget re d) as [r|] eqn:Er; cbn [bindR]; [|discriminate].
  destruct (dget im d) as [i|] eqn:Ei; cbn [bindR]; [|discriminate].
  unfold complex_of. destruct (num r) as [r'|] eqn:Nr; cbn [bindR]; [|discriminate].
  destruct (num i) as [i'|] eqn:Ni; cbn [bindR]; [|discriminate]. intros H. injection H as <-.
  exists r, i, r', i'. repeat split; auto; exists d; auto.
Qed.
Lemma init_number_ok design args name v : init_number design args name = Ok v -> dget name args = None ->
  entry design "initial_states" name v.
Proof.
  unfold init_number, dsub. intros H Ha. rewrite Ha in H. revert H.
  destruct (dget "initial_states" design) as [c|] eqn:Ec; cbn [bindR]; [|discriminate].
  destruct c; cbn [pget]; try discriminate. destruct (dget name d) eqn:E; [|discriminate].
  intros H. injection H as <-. exists d. auto.
Qed.
Lemma init_optional_ok t design args name v : init_optional t design args name = Ok v -> dget name args = None ->
  match v with Some x => entry design "initial_states" name x | None => True end.
Proof.
  unfold init_optional. destruct (dsub "initial_states" t) as [c|]; cbn [bindR]; [|discriminate].
  destruct (pmem name c) as [[]|]; cbn [bindR]; try discriminate.
  - destruct (init_number design args name) as [x|] eqn:E; cbn [bindR]; [|discriminate].
    intros H Ha. injection H as <-. eapply init_number_ok; eauto.
  - intros H _. injection H as <-. exact I.
Qed.

(** Without steady-state initialization the DER starts from the entries of the
    section "initial_states" (of the file, else the template): the phase-a values;
    phases b and c are those turned by -120 and +120 degrees (their own entries in
    the file are ignored), and the DC link starts at its reference. *)
Theorem C42_states_from_configuration_partial :
  forall model file id kwargs o st, construct model file id kwargs = Ok o -> o_states o = Some st ->
  truthy (o_steady o) = false /\ dget "Vdc" st = Some SVdcRef /\
  (forall q, In q ["i"; "x"; "u"] ->
     exists r i r' i', entry (o_design o) "initial_states" (q ++ "aR") r /\ entry (o_design o) "initial_states" (q ++ "aI") i /\
       num r = Ok r' /\ num i = Ok i' /\
       let c := CGiven (VComplex r' i') in
       dget (q ++ "aR") st = Some (SRe c) /\ dget (q ++ "aI") st = Some (SIm c) /\
       (In model three_phase_models ->
          dget (q ++ "bR") st = Some (SRe (CTurnB c)) /\ dget (q ++ "bI") st = Some (SIm (CTurnB c)) /\
          dget (q ++ "cR") st = Some (SRe (CTurnC c)) /\ dget (q ++ "cI") st = Some (SIm (CTurnC c)))) /\
  (forall n v, In n ["xDC"; "xP"; "xQ"; "xPLL"; "wte"] -> dget n st = Some v ->
     exists x, v = SNum x /\ entry (o_design o) "initial_states" n x).
Proof.
  intros model file id kwargs o st H Hst. apply construct_inv in H as (s & _ & Hd & Hi & Hn). rewrite Hst in Hi. rewrite Hd.
  assert (N : forall n, In n ["ia"; "xa"; "ua"; "xDC"; "xP"; "xQ"; "xPLL"; "wte"] -> dget n (s_args s) = None).
  { intros n Hin. apply Hn. rewrite <- instr_iff.
    assert (A : forallb (fun n => negb (instr n (map fst DER_argument_spec))) ["ia"; "xa"; "ua"; "xDC"; "xP"; "xQ"; "xPLL"; "wte"] = true)
      by (vm_compute; reflexivity).
    rewrite forallb_forall in A. apply A in Hin. apply negb_true_iff in Hin. congruence. }
  unfold initialize_states in Hi. destruct (create_template model) as [t|]; cbn [bindR] in Hi; [|discriminate].
  destruct (init_complex (s_design s) (s_args s) "ia" "iaR" "iaI") as [ia|] eqn:E1; cbn [bindR] in Hi; [|discriminate].
  destruct (init_complex (s_design s) (s_args s) "xa" "xaR" "xaI") as [xa|] eqn:E2; cbn [bindR] in Hi; [|discriminate].
  destruct (init_complex (s_design s) (s_args s) "ua" "uaR" "uaI") as [ua|] eqn:E3; cbn [bindR] in Hi; [|discriminate].
  destruct (init_optional t (s_design s) (s_args s) "xDC") as [xDC|] eqn:E4; cbn [bindR] in Hi; [|discriminate].
  destruct (init_optional t (s_design s) (s_args s) "xP") as [xP|] eqn:E5; cbn [bindR] in Hi; [|discriminate].
  destruct (init_optional t (s_design s) (s_args s) "xQ") as [xQ|] eqn:E6; cbn [bindR] in Hi; [|discriminate].
  destruct (init_number (s_design s) (s_args s) "xPLL") as [xPLL|] eqn:E7; cbn [bindR] in Hi; [|discriminate].
  destruct (init_number (s_design s) (s_args s) "wte") as [wte|] eqn:E8; cbn [bindR] in Hi; [|discriminate].
  destruct (truthy (o_steady o)); [discriminate|].
  destruct (existsb (String.eqb model) three_phase_models) eqn:Em; injection Hi as <-.
  
  { apply init_complex_ok in E1; [|apply N; cbn; tauto]. apply init_complex_ok in E2; [|apply N; cbn; tauto].
  apply init_complex_ok in E3; [|apply N; cbn; tauto]. apply init_optional_ok in E4; [|apply N; cbn; tauto].
  apply init_optional_ok in E5; [|apply N; cbn; tauto]. apply init_optional_ok in E6; [|apply N; cbn; tauto].
  apply init_number_ok in E7; [|apply N; cbn; tauto]. apply init_number_ok in E8; [|apply N; cbn; tauto].
  split; [reflexivity|]. split; [reflexivity|]. split.
  - intros q Hq. cbn in Hq. destruct Hq as [<-|[<-|[<-|[]]]].
    + destruct E1 as (r & i & r' & i' & ? & ? & ? & ? & ->). exists r, i, r', i'. repeat (split; [assumption|]).
      cbn zeta. split; [reflexivity|]. split; [reflexivity|].
      intros Hm; apply instr_iff in Hm; unfold instr in Hm; first [exfalso; congruence | destruct xDC, xP, xQ; repeat split; reflexivity].
    + destruct E2 as (r & i & r' & i' & ? & ? & ? & ? & ->). exists r, i, r', i'. repeat (split; [assumption|]).
      cbn zeta. split; [reflexivity|]. split; [reflexivity|].
      intros Hm; apply instr_iff in Hm; unfold instr in Hm; first [exfalso; congruence | destruct xDC, xP, xQ; repeat split; reflexivity].
    + destruct E3 as (r & i & r' & i' & ? & ? & ? & ? & ->). exists r, i, r', i'. repeat (split; [assumption|]).
      cbn zeta. split; [reflexivity|]. split; [reflexivity|].
      intros Hm; apply instr_iff in Hm; unfold instr in Hm; first [exfalso; congruence | destruct xDC, xP, xQ; repeat split; reflexivity].
  - intros n v Hin. cbn in Hin. destruct Hin as [<-|[<-|[<-|[<-|[<-|[]]]]]]; intros Hv; destruct xDC, xP, xQ; cbn in Hv; try discriminate;
     injection Hv as <-; eauto. }
  { apply init_complex_ok in E1; [|apply N; cbn; tauto]. apply init_complex_ok in E2; [|apply N; cbn; tauto].
  apply init_complex_ok in E3; [|apply N; cbn; tauto]. apply init_optional_ok in E4; [|apply N; cbn; tauto].
  apply init_optional_ok in E5; [|apply N; cbn; tauto]. apply init_optional_ok in E6; [|apply N; cbn; tauto].
  apply init_number_ok in E7; [|apply N; cbn; tauto]. apply init_number_ok in E8; [|apply N; cbn; tauto].
  split; [reflexivity|]. split; [reflexivity|]. split.
  - intros q Hq. cbn in Hq. destruct Hq as [<-|[<-|[<-|[]]]].
    + destruct E1 as (r & i & r' & i' & ? & ? & ? & ? & ->). exists r, i, r', i'. repeat (split; [assumption|]).
      cbn zeta. split; [reflexivity|]. split; [reflexivity|].
      intros Hm; apply instr_iff in Hm; unfold instr in Hm; first [exfalso; congruence | destruct xDC, xP, xQ; repeat split; reflexivity].
    + destruct E2 as (r & i & r' & i' & ? & ? & ? & ? & ->). exists r, i, r', i'. repeat (split; [assumption|]).
      cbn zeta. split; [reflexivity|]. split; [reflexivity|].
      intros Hm; apply instr_iff in Hm; unfold instr in Hm; first [exfalso; congruence | destruct xDC, xP, xQ; repeat split; reflexivity].
    + destruct E3 as (r & i & r' & i' & ? & ? & ? & ? & ->). exists r, i, r', i'. repeat (split; [assumption|]).
      cbn zeta. split; [reflexivity|]. split; [reflexivity|].
      intros Hm; apply instr_iff in Hm; unfold instr in Hm; first [exfalso; congruence | destruct xDC, xP, xQ; repeat split; reflexivity].
  - intros n v Hin. cbn in Hin. destruct Hin as [<-|[<-|[<-|[<-|[<-|[]]]]]]; intros Hv; destruct xDC, xP, xQ; cbn in Hv; try discriminate;
     injection Hv as <-; eauto. }
Qed.
Print Assumptions C42_states_from_configuration_partial.

(** The function itself honours a dictionary with the keys ia, xa, ua, ...; no
    constructor ever passes them. *)
Theorem C42_dictionary_keys_partial :
  forall model design args st n v, initialize_states model design args (VBool false) = Ok (Some st) ->
  In n ["ia"; "xa"; "ua"] -> dget n args = Some v ->
  dget (n ++ "R") st = Some (SRe (CGiven v)) /\ dget (n ++ "I") st = Some (SIm (CGiven v)).
Proof.
  intros model design args st n v Hi Hin Hv.
  unfold initialize_states in Hi. destruct (create_template model) as [t|]; cbn [bindR] in Hi; [|discriminate].
  destruct (init_complex design args "ia" "iaR" "iaI") as [ia|] eqn:E1; cbn [bindR] in Hi; [|discriminate].
  destruct (init_complex design args "xa" "xaR" "xaI") as [xa|] eqn:E2; cbn [bindR] in Hi; [|discriminate].
  destruct (init_complex design args "ua" "uaR" "uaI") as [ua|] eqn:E3; cbn [bindR] in Hi; [|discriminate].
  destruct (init_optional t design args "xDC"); cbn [bindR] in Hi; [|discriminate].
  destruct (init_optional t design args "xP"); cbn [bindR] in Hi; [|discriminate].
  destruct (init_optional t design args "xQ"); cbn [bindR] in Hi; [|discriminate].
  destruct (init_number design args "xPLL"); cbn [bindR] in Hi; [|discriminate].
  destruct (init_number design args "wte"); cbn [bindR] in Hi; [|discriminate].
  cbn [truthy] in Hi. injection Hi as <-. unfold init_complex in *.
  cbn in Hin. destruct Hin as [<-|[<-|[<-|[]]]]; rewrite Hv in *.
  - injection E1 as <-. split; reflexivity. - injection E2 as <-. split; reflexivity. - injection E3 as <-. split; reflexivity.
Qed.
Print Assumptions C42_dictionary_keys_partial.

(** ** C77 *)
(** SolarPVDERThreePhase has no initial state vector unless it is initialized to
    its steady state: its y0 needs the attribute Vrms_filter. *)
Theorem C77_initial_state_vector_refuted :
  forall file id kwargs o st, construct "SolarPVDERThreePhase" file id kwargs = Ok o -> o_states o = Some st ->
  SimModel.der_y0 SimModel.MThree (fun n => dget n st) = Raise AttributeError.
Proof.
  intros file id kwargs o st H Hst. pose proof (construct_inv _ _ _ _ _ H) as (s & _ & _ & Hi & _). rewrite Hst in Hi.
  unfold initialize_states in Hi. destruct (create_template _) as [t|]; cbn [bindR] in Hi; [|discriminate].
  destruct (init_complex _ _ "ia" _ _) as [ia|]; cbn [bindR] in Hi; [|discriminate].
  destruct (init_complex _ _ "xa" _ _) as [xa|]; cbn [bindR] in Hi; [|discriminate].
  destruct (init_complex _ _ "ua" _ _) as [ua|]; cbn [bindR] in Hi; [|discriminate].
  destruct (init_optional _ _ _ "xDC") as [xDC|]; cbn [bindR] in Hi; [|discriminate].
  destruct (init_optional _ _ _ "xP") as [xP|]; cbn [bindR] in Hi; [|discriminate].
  destruct (init_optional _ _ _ "xQ") as [xQ|]; cbn [bindR] in Hi; [|discriminate].
  destruct (init_number _ _ "xPLL") as [xPLL|]; cbn [bindR] in Hi; [|discriminate].
  destruct (init_number _ _ "wte") as [wte|]; cbn [bindR] in Hi; [|discriminate].
  destruct (truthy (o_steady o)); [discriminate|]. injection Hi as <-.
  destruct xDC, xP, xQ; vm_compute; reflexivity.
Qed.
Print Assumptions C77_initial_state_vector_refuted.

(** The balanced and the numba type do have one, of the length the ODE expects. *)
Theorem C77_other_types_partial :
  forall m ty file id kwargs o st, In (m, ty) [("SolarPVDERThreePhaseBalanced", SimModel.MBal); ("SolarPVDERThreePhaseNumba", SimModel.MNumba)] ->
  construct m file id kwargs = Ok o -> o_states o = Some st ->
  exists y, SimModel.der_y0 ty (fun n => dget n st) = Ok y /\ List.length y = SimModel.n_ODE ty.
Proof.
  intros m ty file id kwargs o st Hmt H Hst.
  assert (Hm : In m ["SolarPVDERThreePhaseBalanced"; "SolarPVDERThreePhaseNumba"]) by (apply (in_map fst) in Hmt; exact Hmt).
  pose proof (construct_inv _ _ _ _ _ H) as (s & Hs & _ & Hi & _). rewrite Hst in Hi.
  unfold initialize_states in Hi. destruct (create_template m) as [t|] eqn:Et; cbn [bindR] in Hi; [|discriminate].
  destruct (init_complex _ _ "ia" _ _) as [ia|]; cbn [bindR] in Hi; [|discriminate].
  destruct (init_complex _ _ "xa" _ _) as [xa|]; cbn [bindR] in Hi; [|discriminate].
  destruct (init_complex _ _ "ua" _ _) as [ua|]; cbn [bindR] in Hi; [|discriminate].
  assert (O : forall n, In n ["xDC"; "xQ"] -> forall v, init_optional t (s_design s) (s_args s) n = Ok v -> exists x, v = Some x).
  { assert (A : exists d, dsub "initial_states" t = Ok (VDict d) /\ dmem "xDC" d = true /\ dmem "xQ" d = true).
    { unfold create_template, dsub in Et. destruct (dget m DER_design_template) as [t0|] eqn:Ed; [|discriminate].
      assert (t0 = t) by congruence. subst t0. cbn in Hm.
      assert (A : match dget m DER_design_template with
                  | Some t => match dget "initial_states" t with
                              | Some (VDict d) => dmem "xDC" d && dmem "xQ" d | _ => false end | _ => false end = true)
        by (destruct Hm as [<-|[<-|[]]]; vm_compute; reflexivity).
      rewrite Ed in A. unfold dsub. destruct (dget "initial_states" t) as [[]|]; try discriminate.
      apply andb_true_iff in A. eauto. }
    destruct A as (d & A1 & A2 & A3). intros n Hn v. unfold init_optional. rewrite A1. cbn [bindR pmem].
    cbn in Hn. destruct Hn as [<-|[<-|[]]]; rewrite ?A2, ?A3; cbn [bindR];
      (match goal with |- (do _ <- ?a; _) = _ -> _ => destruct a end; cbn [bindR]; [|discriminate]); intros E; injection E as <-; eauto. }
  destruct (init_optional _ _ _ "xDC") as [xDC|] eqn:E4; cbn [bindR] in Hi; [|discriminate].
  destruct (init_optional _ _ _ "xP") as [xP|]; cbn [bindR] in Hi; [|discriminate].
  destruct (init_optional _ _ _ "xQ") as [xQ|] eqn:E6; cbn [bindR] in Hi; [|discriminate].
  destruct (init_number _ _ "xPLL") as [xPLL|]; cbn [bindR] in Hi; [|discriminate].
  destruct (init_number _ _ "wte") as [wte|]; cbn [bindR] in Hi; [|discriminate].
  destruct (truthy (o_steady o)); [discriminate|]. injection Hi as <-.
  apply O in E4 as [xd ->]; [|cbn; tauto]. apply O in E6 as [xq ->]; [|cbn; tauto]. clear O Et.
  clear Hm. cbn in Hmt. destruct Hmt as [Hmt|[Hmt|[]]]; injection Hmt as <- <-; destruct xP; eexists; split; vm_compute; reflexivity.
Qed.
Print Assumptions C77_other_types_partial.

Example C77_hypotheses_met : exists o st,
  construct "SolarPVDERThreePhase" file_ex "50" [("gridModel", VGrid); ("steadyStateInitialization", VBool false)] = Ok o /\
  o_states o = Some st /\ truthy (o_steady o) = false.
Proof. do 2 eexists. split; [vm_compute; reflexivity|]. split; reflexivity. Qed.
Example C77_other_types_met : exists o st,
  construct "SolarPVDERThreePhaseNumba" file_ex "50" [("gridModel", VGrid); ("steadyStateInitialization", VBool false)] = Ok o /\
  o_states o = Some st.
Proof. do 2 eexists. split; [vm_compute; reflexivity|]. reflexivity. Qed.

(** ** C80 *)
(** The argument specification accepts integer log levels (10, 20, ...), but every
    configuration with one fails. *)
Theorem C80_integer_verbosity_refuted :
  forall model file id kwargs z, dget "verbosity" kwargs = Some (VInt z) ->
  (exists types, In ("verbosity", (VStr "INFO", types)) DER_argument_spec /\ isinstance (VInt z) types = true) /\
  forall o, construct model file id kwargs <> Ok o.
Proof.
  intros model file id kwargs z Hv. split; [exists [TStr; TInt]; split; [cbn; tauto|reflexivity]|].
  intros o H. apply construct_inv in H as (s & Hs & _). apply setup_inv in Hs as (t & cfg & _ & _ & _ & _ & Ha & _ & _ & _ & _ & _ & _ & v & Hd & Hl).
  rewrite Ha, get_DER_arguments_spec in Hd. unfold contribution in Hd. rewrite Hv in Hd.
  destruct (dget "verbosity" DER_argument_spec) as [[df ts]|]; [|discriminate].
  destruct (isinstance (VInt z) ts); [|discriminate]. injection Hd as <-. discriminate.
Qed.
Print Assumptions C80_integer_verbosity_refuted.

(** The five names are accepted, every other string raises KeyError. *)
Theorem C80_named_levels_partial :
  forall s, (In s ["DEBUG"; "INFO"; "WARNING"; "ERROR"; "CRITICAL"] -> initialize_logger (VStr s) = Ok tt) /\
            (~ In s ["DEBUG"; "INFO"; "WARNING"; "ERROR"; "CRITICAL"] -> initialize_logger (VStr s) = Raise KeyError).
Proof.
  intros s. split; intros H.
  - cbn in H. destruct H as [<-|[<-|[<-|[<-|[<-|[]]]]]]; reflexivity.
  - unfold initialize_logger, dsub. assert (N : dget s logging_levels_dict = None) by (apply dget_nokey; exact H). now rewrite N.
Qed.
Print Assumptions C80_named_levels_partial.
Example C80_hypotheses_met : construct "SolarPVDERThreePhase" file_ex "50" [("gridModel", VGrid); ("verbosity", VInt 20)] = Raise KeyError /\
  is_ok (construct "SolarPVDERThreePhase" file_ex "50" [("gridModel", VGrid); ("verbosity", VStr "DEBUG")]) = true.
Proof. vm_compute. auto. Qed.

(** Each of the three switches of a DER is the argument of its own name. *)
Theorem C78_switches_partial : forall args sa ss am,
  initialize_flags args = Ok (sa, ss, am) <->
  dget "standAlone" args = Some sa /\ dget "steadyStateInitialization" args = Some ss /\ dget "allowUnbalancedM" args = Some am.
Proof.
  intros args sa ss am. unfold initialize_flags, dsub.
  destruct (dget "standAlone" args) as [a|]; cbn [bindR]; [|split; [discriminate|intros (Q & _); discriminate]].
  destruct (dget "steadyStateInitialization" args) as [b|]; cbn [bindR]; [|split; [discriminate|intros (_ & Q & _); discriminate]].
  destruct (dget "allowUnbalancedM" args) as [c|]; cbn [bindR]; [|split; [discriminate|intros (_ & _ & Q); discriminate]].
  split; [intros [= -> -> ->]; auto|intros ([= ->] & [= ->] & [= ->]); reflexivity].
Qed.
Print Assumptions C78_switches_partial.
