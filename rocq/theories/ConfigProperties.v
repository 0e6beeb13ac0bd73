(** Properties C38, C39, C40: how the configuration of a DER is put together. *)
From Verif Require Import Base ConfigValues ConfigData ConfigModel ConfigSpec ConfigLemmas ConfigProofs.
Open Scope string_scope.

(** A configuration file with one three-phase DER and one that inherits from it. *)
Definition file_ex : cfgfile :=
  [("50", [("parent_config", VStr "");
           ("basic_specs", VDict [("model_type", VStr "SolarPVDERThreePhase")]);
           ("inverter_ratings", VDict [("Srated", VFloat 50000); ("Vrmsrated", VFloat 177); ("Ioverload", VFloat (13#10))]);
           ("verbosity", VStr "INFO");
           ("LVRT", VDict [("config_id", VStr "LVRT_1547cat3")])]);
   ("50_type1", [("parent_config", VStr "50"); ("inverter_ratings", VDict [("Ioverload", VFloat (11#10))])]);
   ("LVRT_1547cat3", [("config", VDict [("1", VDict [("V_threshold", VFloat (88#100)); ("t_threshold", VFloat 5);
        ("t_min_ridethrough", VInt 20); ("mode", VStr "momentary_cessation")])])])].

(** * C38 *)

(** The arguments that reach a DER never name a component or ride-through block. *)
Lemma arguments_no_component model t cfg kwargs comp : dget model DER_design_template = Some t ->
  In comp (map fst t) \/ In comp (map fst RT_components) -> dget comp (get_DER_arguments cfg kwargs) = None.
Proof.
  intros H Hc. rewrite get_DER_arguments_spec.
  assert (A : forallb (fun kv => forallb (fun c => negb (instr c (map fst DER_argument_spec)))
                (map fst (snd kv) ++ map fst RT_components)%list) DER_design_template = true) by (vm_compute; reflexivity).
  apply dget_In in H. rewrite forallb_forall in A. specialize (A _ H). cbn [snd] in A.
  rewrite forallb_forall in A. specialize (A comp). rewrite in_app_iff in A. specialize (A Hc).
  apply negb_true_iff in A. assert (N : ~ In comp (map fst DER_argument_spec)) by (rewrite <- instr_iff; congruence).
  apply dget_nokey in N. now rewrite N.
Qed.

(** Function level.  For every template, argument dictionary, configuration and
    parent: the stored value is the one of the first source that has the
    parameter; arguments, own and parent values of the wrong type are rejected
    with ValueError (values of the template are not checked); nothing else is
    ever raised. *)
Theorem C38_parameter_precedence_partial :
  forall model t cfg parent args,
  dget model DER_design_template = Some t ->
  components_present t cfg -> components_are_objects t cfg ->
  components_present t parent -> components_are_objects t parent ->
  (forall comp, In comp (map fst t) -> dget comp args = None) ->
  (forall d, update_DER_config t cfg parent args = Ok d ->
     forall comp p v0, entry t comp p v0 ->
     exists s v, supplied_by args cfg parent t comp p s v /\ entry d comp p v /\
                 (s <> FromTemplate -> has_declared_type p v)) /\
  (update_DER_config t cfg parent args = Raise ValueError <->
     exists comp p v0 s v, entry t comp p v0 /\ supplied_by args cfg parent t comp p s v /\
                           s <> FromTemplate /\ ~ has_declared_type p v) /\
  (forall e, update_DER_config t cfg parent args = Raise e -> e = ValueError).
Proof.
  intros model t cfg parent args Hm H1 H2 H3 H4 H5. pose proof (templates_ok _ _ Hm) as OK.
  split; [|split; [split|]].
  - intros d Hd. destruct (design_ok t cfg parent args OK H1 H2 H3 H4 H5 d Hd) as [A _]. exact A.
  - intros Hr. now apply (design_raise t cfg parent args OK H1 H2 H3 H4 H5) in Hr as [_ ?].
  - intros (comp & p & v0 & s & v & He & Hs & N & Ht).
    destruct (update_DER_config t cfg parent args) as [d|e] eqn:E.
    + exfalso. destruct (design_ok t cfg parent args OK H1 H2 H3 H4 H5 d E) as [A _].
      destruct (A _ _ _ He) as (s' & v' & Hs' & _ & Ht'). destruct (supplied_fun _ _ _ _ _ _ _ _ _ _ Hs Hs') as [-> ->].
      auto.
    + apply (design_raise t cfg parent args OK H1 H2 H3 H4 H5) in E as [-> _]. reflexivity.
  - intros e Hr. now apply (design_raise t cfg parent args OK H1 H2 H3 H4 H5) in Hr as [? _].
Qed.
Print Assumptions C38_parameter_precedence_partial.

(** The argument named [n] as the code resolves it. *)
Definition argument (cfg kwargs : dict) (n : string) (v : pv) : Prop :=
  exists default types, In (n, (default, types)) DER_argument_spec /\
    ((dget n kwargs = Some v /\ isinstance v types = true) \/
     (dget n kwargs = None /\ dget n cfg = Some v /\ isinstance v types = true) \/
     (dget n kwargs = None /\ dget n cfg = None /\ v = default /\ default <> VNone)).
Lemma argument_iff cfg kwargs n v : dget n (get_DER_arguments cfg kwargs) = Some v <-> argument cfg kwargs n v.
Proof.
  rewrite get_DER_arguments_spec. unfold argument. split.
  - destruct (dget n DER_argument_spec) as [[df ts]|] eqn:E; [|discriminate]. intros H.
    exists df, ts. split; [now apply dget_In|]. unfold contribution in H.
    destruct (dget n kwargs) as [w|].
    { destruct (isinstance w ts) eqn:Ei; [|discriminate]. injection H as ->. auto. }
    destruct (dget n cfg) as [w|].
    { destruct (isinstance w ts) eqn:Ei; [|discriminate]. injection H as ->. auto. }
    right; right. destruct df; try discriminate; injection H as <-; repeat split; discriminate.
  - intros (df & ts & Hin & H). apply (dget_In_nodup _ _ _ spec_nodup) in Hin. rewrite Hin.
    unfold contribution. destruct H as [[H Hi] | [(H & H' & Hi) | (H & H' & -> & N)]].
    + now rewrite H, Hi. + now rewrite H, H', Hi.
    + rewrite H, H'. destruct df; congruence.
Qed.

Lemma create_inv model file id cfg2 parent1 : create_DER_config model file id = Ok (cfg2, parent1) ->
  exists t cfg, dget model DER_design_template = Some t /\ dget id file = Some cfg /\
    truthy (get_DER_parent_id cfg) = false /\ parent1 = complete_with t [] /\ cfg2 = complete_with t cfg /\
    update_DER_config_specs cfg2 parent1 = Ok cfg2.
Proof.
  unfold create_DER_config, create_template, get_DER_config, dsub.
  destruct (dget model DER_design_template) as [t|]; cbn [bindR]; [|discriminate].
  destruct (dget id file) as [cfg|]; cbn [bindR]; [|discriminate].
  unfold get_DER_parent_config. destruct (truthy (get_DER_parent_id cfg)) eqn:Et; cbn [bindR]; [discriminate|].
  intros H. exists t, cfg.
  assert (P : forall st sp, has_spec (complete_with t []) st sp = Ok false).
  { intros st sp. unfold has_spec, complete_with. rewrite mem_complete. cbn [dget].
    destruct (instr st (map fst t)); reflexivity. }
  assert (G : forall c s c', update_spec (complete_with t []) c s = Ok c' -> c' = c).
  { intros c [st sp] c'. unfold update_spec. destruct (has_spec c st sp) as [[]|]; cbn [bindR]; try congruence.
    rewrite P. cbn. discriminate. }
  assert (F : forall l c c', foldR (update_spec (complete_with t [])) c l = Ok c' -> c' = c).
  { induction l as [|s l IH]; cbn [foldR]; intros c c' Hc; [congruence|].
    destruct (update_spec (complete_with t []) c s) as [c1|] eqn:E; cbn [bindR] in Hc; [|discriminate].
    apply G in E. apply IH in Hc. congruence. }
  destruct (update_DER_config_specs (complete_with t cfg) (complete_with t [])) as [c2|] eqn:E; cbn [bindR] in H; [|discriminate].
  injection H as <- <-. pose proof (F _ _ _ E) as ->. auto 7.
Qed.

Lemma complete_present t cfg : components_present t (complete_with t cfg).
Proof.
  intros comp Hc. unfold complete_with. rewrite mem_complete. apply instr_iff in Hc. rewrite Hc.
  destruct (dget comp cfg); eauto.
Qed.
Lemma complete_objects t cfg : components_are_objects t cfg -> components_are_objects t (complete_with t cfg).
Proof.
  intros H comp v c Ht. unfold complete_with. rewrite mem_complete. destruct (dget comp cfg) eqn:E.
  - intros Hc. injection Hc as <-. eauto.
  - destruct (instr comp (map fst t)); [|discriminate]. intros Hc. injection Hc as <-. eauto.
Qed.
Lemma complete_entry t cfg comp p v : entry (complete_with t cfg) comp p v <-> entry cfg comp p v.
Proof.
  unfold entry, complete_with. split; intros (c & H1 & H2).
  - rewrite mem_complete in H1. destruct (dget comp cfg); [injection H1 as ->; eauto|].
    destruct (instr comp (map fst t)); [|discriminate]. injection H1 as <-. discriminate.
  - exists c. rewrite mem_complete, H1. auto.
Qed.
Lemma complete_arguments model t cfg kwargs n v : dget model DER_design_template = Some t ->
  argument (complete_with t cfg) kwargs n v <-> argument cfg kwargs n v.
Proof.
  intros Hm.
  assert (A : forallb (fun kv => forallb (fun c => negb (instr c (map fst (snd kv)))) (map fst DER_argument_spec))
     DER_design_template = true) by (vm_compute; reflexivity).
  apply dget_In in Hm. rewrite forallb_forall in A. specialize (A _ Hm). cbn [snd] in A. rewrite forallb_forall in A.
  unfold argument. split; intros (df & ts & Hin & H); exists df, ts; split; auto;
   (assert (Hn : In n (map fst DER_argument_spec)) by (change n with (fst (n, (df, ts))); now apply in_map);
    specialize (A _ Hn); apply negb_true_iff in A;
    assert (E : dget n (complete_with t cfg) = dget n cfg)
      by (unfold complete_with; rewrite mem_complete, A; destruct (dget n cfg); auto);
    rewrite E in *; auto).
Qed.

Lemma setup_inv model file id kwargs s : setup_DER model file id kwargs = Ok s ->
  exists t cfg, dget model DER_design_template = Some t /\ dget id file = Some cfg /\
    truthy (get_DER_parent_id cfg) = false /\
    update_DER_config_specs (complete_with t cfg) (complete_with t []) = Ok (complete_with t cfg) /\
    s_args s = get_DER_arguments (complete_with t cfg) kwargs /\
    update_DER_config t (complete_with t cfg) (complete_with t []) (s_args s) = Ok (s_design s) /\
    update_RT_config file (s_design s) = Ok (s_RT s) /\ check_RT_config (s_RT s) = Ok tt /\
    s_model s = model /\ s_id s = id /\
    (exists i, dget "identifier" (s_args s) = Some i) /\
    (exists v, dget "verbosity" (s_args s) = Some v /\ initialize_logger v = Ok tt).
Proof.
  unfold setup_DER. destruct (create_DER_config model file id) as [[cfg2 parent1]|] eqn:E; cbn [bindR]; [|discriminate].
  apply create_inv in E as (t & cfg & Hm & Hc & Ht & -> & -> & Hs).
  unfold create_template, dsub. rewrite Hm. cbn [bindR].
  destruct (dget "identifier" _) as [i|] eqn:Ei; cbn [bindR]; [|discriminate].
  destruct (dget "verbosity" _) as [vb|] eqn:Ev; cbn [bindR]; [|discriminate].
  destruct (initialize_logger vb) as [[]|] eqn:El; cbn [bindR]; [|discriminate].
  destruct (check_model_type _ _); cbn [bindR]; [|discriminate].
  destruct (update_DER_config _ _ _ _) as [d|] eqn:Ed; cbn [bindR]; [|discriminate].
  destruct (check_basic_specs d); cbn [bindR]; [|discriminate].
  destruct (update_RT_config file d) as [rt|] eqn:Er; cbn [bindR]; [|discriminate].
  destruct (check_RT_config rt) as [[]|] eqn:Ec; cbn [bindR]; [|discriminate].
  intros H. injection H as <-. cbn [s_args s_design s_RT s_model s_id]. exists t, cfg.
  repeat (split; [assumption || reflexivity|]). split; eauto.
Qed.

(** End to end, for every DER the library creates from any file, ID and keyword
    arguments: every parameter comes from the resolved arguments, else the DER's
    own entry, else the template (the parent plays no role, see C40). *)
Theorem C38_created_der_partial :
  forall model file id kwargs s cfg t, setup_DER model file id kwargs = Ok s ->
  dget id file = Some cfg -> dget model DER_design_template = Some t -> components_are_objects t cfg ->
  exists args, (forall n v, dget n args = Some v <-> argument cfg kwargs n v) /\
  forall comp p v0, entry t comp p v0 ->
  exists src v, supplied_by args cfg [] t comp p src v /\ entry (s_design s) comp p v /\
                src <> FromParent /\ (src <> FromTemplate -> has_declared_type p v).
Proof.
  intros model file id kwargs s cfg t H Hc Hm Ho.
  apply setup_inv in H as (t' & cfg' & Hm' & Hc' & _ & _ & Ha & Hd & _).
  assert (t' = t) by congruence. assert (cfg' = cfg) by congruence. subst t' cfg'.
  exists (s_args s). split.
  { intros n v. rewrite Ha, argument_iff. now apply (complete_arguments model). }
  intros comp p v0 He. pose proof (templates_ok _ _ Hm) as OK.
  destruct (design_ok t (complete_with t cfg) (complete_with t []) (s_args s) OK) with (d := s_design s) as [A _]; auto.
  - apply complete_present. - now apply complete_objects. - apply complete_present.
  - apply complete_objects. intros ? ? ? ? X; discriminate X.
  - intros c Hin. rewrite Ha. eapply arguments_no_component; eauto.
  - destruct (A _ _ _ He) as (src & v & Hs & He' & Ht). exists src, v. split; [|split; [auto|split; [|auto]]].
    + inversion Hs; subst.
      * now constructor.
      * constructor; auto. eapply complete_entry; eassumption.
      * exfalso. match goal with E : entry (complete_with t []) _ _ _ |- _ => apply complete_entry in E as (c & Hx & _) end. discriminate Hx.
      * constructor; auto.
        -- intros w Hw. match goal with N : no_entry (complete_with t cfg) _ _ |- _ => apply (N w) end. now apply complete_entry.
        -- intros w (c & Hx & _). discriminate Hx.
    + intros ->. inversion Hs; subst. match goal with E : entry (complete_with t []) _ _ _ |- _ => apply complete_entry in E as (c & Hx & _) end. discriminate Hx.
Qed.
Print Assumptions C38_created_der_partial.

(** The hypotheses are met by a real creation: Srated given as keyword argument
    wins over the file, Ioverload comes from the file, Np from the template. *)
Definition kw_ex : dict := [("gridModel", VGrid); ("Srated", VFloat 40000); ("identifier", VStr "a")].
Example C38_hypotheses_met : exists s,
  setup_DER "SolarPVDERThreePhase" file_ex "50" kw_ex = Ok s /\
  entry (s_design s) "inverter_ratings" "Srated" (VFloat 40000) /\
  entry (s_design s) "inverter_ratings" "Ioverload" (VFloat (13#10)) /\
  entry (s_design s) "module_parameters" "Np" (VInt 11).
Proof.
  eexists. split; [vm_compute; reflexivity|]. repeat split; eexists; split; reflexivity.
Qed.
(** ... and a wrongly typed entry of the file is rejected. *)
Example C38_wrong_type_met :
  setup_DER "SolarPVDERThreePhase"
    [("50", [("basic_specs", VDict [("model_type", VStr "SolarPVDERThreePhase")]);
             ("inverter_ratings", VDict [("Srated", VStr "50"); ("Vrmsrated", VFloat 177)])])] "50"
    [("gridModel", VGrid)] = Raise ValueError.
Proof. vm_compute. reflexivity. Qed.
