(** C119: the configuration file shipped with the package (config_der.json). *)
From Verif Require Import Base ConfigValues ConfigData ConfigModel ConfigSpec ConfigLemmas ConfigProofs ConfigProperties ConfigProperties2 ConfigProperties3 ShippedConfig.
Open Scope string_scope.

(** * When a configuration is accepted *)
(** the ride-through settings of a DER entry: its own, else those of the template *)
Definition RT_source (cfg : dict) : dict :=
  map (fun nv => (fst nv, match dget (fst nv) cfg with Some v => v | None => snd nv end)) RT_components.
Lemma RT_source_get cfg n dflt : dget n RT_components = Some dflt ->
  dget n (RT_source cfg) = Some (match dget n cfg with Some v => v | None => dflt end).
Proof.
  unfold RT_source. generalize RT_components as l. induction l as [|[k v] l IH]; cbn; [discriminate|].
  destruct (String.eqb n k) eqn:E; [|exact IH]. apply String.eqb_eq in E. subst k. intros H. injection H as ->. reflexivity.
Qed.
Lemma update_RT_config_ext file d d' : (forall n, In n (map fst RT_components) -> dget n d = dget n d') ->
  update_RT_config file d = update_RT_config file d'.
Proof.
  intros H. unfold update_RT_config. f_equal. revert H. generalize (map fst RT_components) as l. generalize (@nil (string * pv)) as acc.
  intros acc l. revert acc. induction l as [|n l IH]; intros acc H; cbn [foldR]; [reflexivity|].
  assert (E : select_RT file d acc n = select_RT file d' acc n).
  { unfold select_RT. replace (dsub n d) with (dsub n d'); [reflexivity|]. unfold dsub. now rewrite (H n (or_introl eq_refl)). }
  rewrite E. destruct (select_RT file d' acc n); cbn [bindR]; [|reflexivity].
  apply IH. intros k Hk. apply H. now right.
Qed.
Lemma specs_kept cfg parent : (forall st sp, In (st, sp) specs -> exists v, entry cfg st sp v) -> update_DER_config_specs cfg parent = Ok cfg.
Proof.
  intros H. unfold update_DER_config_specs. change spec_config with specs.
  assert (F : forall l, (forall st sp, In (st, sp) l -> exists v, entry cfg st sp v) -> foldR (update_spec parent) cfg l = Ok cfg).
  { induction l as [|[st sp] l IH]; intros Hl; cbn [foldR]; [reflexivity|].
    destruct (Hl st sp (or_introl eq_refl)) as (v & c & H1 & H2).
    unfold update_spec at 1, has_spec. rewrite H1. cbn [pmem bindR].
    replace (dmem sp c) with true by (symmetry; apply dmem_dget; eauto). cbn [bindR]. apply IH. intros; apply Hl; now right. }
  now apply F.
Qed.

Lemma template_parameter_declared t comp c p v0 : tmpl_ok t = true -> dget comp t = Some (VDict c) -> dget p c = Some v0 ->
  exists types, dget p parameter_properties = Some types.
Proof.
  intros OK E1 E2. unfold tmpl_ok in OK. rewrite !andb_true_iff in OK. destruct OK as [[[[_ A] _] _] _].
  rewrite forallb_forall in A. apply dget_In in E1. specialize (A _ E1). cbn [fst snd] in A.
  rewrite !andb_true_iff in A. destruct A as [[_ A] _]. rewrite forallb_forall in A.
  assert (K : known_param p = true) by (apply A; cbn [params_of]; apply dget_key; eauto).
  unfold known_param in K. apply andb_true_iff in K. destruct K as [K _]. now apply dmem_dget in K.
Qed.

Lemma setup_accepts m file id kwargs cfg t rt :
  dget m DER_design_template = Some t -> @dget dict id file = Some cfg -> truthy (get_DER_parent_id cfg) = false ->
  components_are_objects t cfg ->
  (forall st sp, In (st, sp) specs -> exists v, entry cfg st sp v) ->
  (forall comp p v0 v, entry t comp p v0 -> entry cfg comp p v -> has_declared_type p v) ->
  (exists i, argument cfg kwargs "identifier" i) ->
  (exists s, argument cfg kwargs "verbosity" (VStr s) /\ In s (map fst logging_levels_dict)) ->
  update_RT_config file (RT_source cfg) = Ok rt -> check_RT_config rt = Ok tt ->
  exists s, setup_DER m file id kwargs = Ok s /\ s_model s = m /\ s_RT s = rt.
Proof.
  intros Hm Hc Hp Ho Hs Ht [i Hi] (lv & Hlv & Hin) Hrt Hck.
  unfold setup_DER, create_DER_config, create_template, get_DER_config, get_DER_parent_config. unfold dsub at 1 2. rewrite Hm, Hc. cbn [bindR]. rewrite Hp. cbn [bindR].
  assert (Hs' : forall st sp, In (st, sp) specs -> exists v, entry (complete_with t cfg) st sp v).
  { intros st sp Hx. destruct (Hs st sp Hx) as [v Hv]. exists v. now apply complete_entry. }
  rewrite (specs_kept _ _ Hs'). cbn [bindR].
  set (args := get_DER_arguments (complete_with t cfg) kwargs).
  assert (G : forall n v, dget n args = Some v <-> argument cfg kwargs n v).
  { intros n v. unfold args. rewrite argument_iff. now apply (complete_arguments m). }
  unfold dsub at 1 2. rewrite (proj2 (G _ _) Hi), (proj2 (G _ _) Hlv). cbn [bindR initialize_logger].
  apply dget_key in Hin. destruct Hin as [z Hz]. unfold dsub at 1. rewrite Hz. cbn [bindR].
  assert (MT : check_model_type (complete_with t cfg) (complete_with t []) = Ok tt).
  { destruct (Hs' "basic_specs" "model_type") as (v & c & H1 & H2); [cbn; auto|]. unfold check_model_type, dsub. rewrite H1. cbn [bindR pmem].
    replace (dmem "model_type" c) with true by (symmetry; apply dmem_dget; eauto). cbn [bindR pget]. now rewrite H2. }
  rewrite MT. cbn [bindR]. unfold dsub at 1. rewrite Hm. cbn [bindR].
  pose proof (templates_ok _ _ Hm) as OK.
  assert (P1 : components_present t (complete_with t cfg)) by apply complete_present.
  assert (P2 : components_are_objects t (complete_with t cfg)) by now apply complete_objects.
  assert (P3 : components_present t (complete_with t [])) by apply complete_present.
  assert (P4 : components_are_objects t (complete_with t [])) by (apply complete_objects; intros ? ? ? ? X; discriminate X).
  assert (P5 : forall comp, In comp (map fst t) -> dget comp args = None) by (intros c Hx; eapply arguments_no_component; eauto).
  destruct (update_DER_config t (complete_with t cfg) (complete_with t []) args) as [d|e] eqn:Ed; cbn [bindR].
  2:{ exfalso. apply (design_raise t _ _ _ OK P1 P2 P3 P4 P5) in Ed as (_ & comp & p & v0 & src & v & He & Hsup & Hn & Hty). apply Hty.
      inversion Hsup; subst.
      - match goal with E : dget p args = Some v |- _ => apply G in E; destruct E as (df & ts & Hin & Hv) end.
        assert (A : forallb (fun s => match dget (fst s) parameter_properties with
                     | Some types => forallb (fun a => existsb (fun b => match a, b with TInt, TInt | TFloat, TFloat => true | _, _ => false end) types) (snd (snd s))
                                     && match fst (snd s) with VNone => true | _ => false end
                     | None => true end) DER_argument_spec = true) by (vm_compute; reflexivity).
        rewrite forallb_forall in A. specialize (A _ Hin). cbn [fst snd] in A.
        assert (exists types, dget p parameter_properties = Some types) as [types Ety].
        { destruct He as (c & E1 & E2). eapply template_parameter_declared; eauto. }
        rewrite Ety in A. apply andb_true_iff in A. destruct A as [A B]. exists types. split; [auto|].
        assert (IV : isinstance v ts = true) by (destruct Hv as [[_ ?]|[(_ & _ & ?)|(_ & _ & -> & N)]]; auto; destruct df; try discriminate; congruence).
        unfold isinstance in *. rewrite existsb_exists in IV. destruct IV as (a & Ia & Va). rewrite forallb_forall in A. specialize (A a Ia).
        rewrite existsb_exists in A. destruct A as (b & Ib & Vb). apply existsb_exists. exists b. split; auto. destruct a, b; try discriminate; auto.
      - match goal with E : entry (complete_with t cfg) _ _ _ |- _ => exact (Ht _ _ _ _ He (proj1 (complete_entry _ _ _ _ _) E)) end.
      - match goal with E : entry (complete_with t []) _ _ _ |- _ => destruct (proj1 (complete_entry _ _ _ _ _) E) as (c & Hx & _) end. discriminate Hx.
      - congruence. }
  destruct (design_ok t _ _ _ OK P1 P2 P3 P4 P5 d Ed) as (A & R & _).
  assert (BS : check_basic_specs d = Ok tt).
  { destruct (required_P t OK "basic_specs" "n_phases") as [v0 E0]; [cbn; tauto|]. destruct (A _ _ _ E0) as (_ & v & _ & (c & H1 & H2) & _).
    destruct (required_P t OK "basic_specs" "n_ODE") as [v1 E1]; [cbn; tauto|]. destruct (A _ _ _ E1) as (_ & v' & _ & (c' & H1' & H2') & _).
    unfold check_basic_specs, dsub. rewrite H1. cbn [bindR pget]. rewrite H2. cbn [bindR]. assert (c' = c) by congruence. subst. now rewrite H2'. }
  rewrite BS. cbn [bindR].
  rewrite (update_RT_config_ext file d (RT_source cfg)).
  - rewrite Hrt. cbn [bindR]. rewrite Hck. cbn [bindR]. eexists. split; [reflexivity|]. split; reflexivity.
  - intros n Hn. apply dget_key in Hn. destruct Hn as [dflt Hd]. rewrite (R _ _ Hd), (RT_source_get cfg _ _ Hd). f_equal.
    assert (NT : instr n (map fst t) = false).
    { assert (Q : forallb (fun kv => forallb (fun c => negb (instr c (map fst (snd kv)))) (map fst RT_components)) DER_design_template = true) by (vm_compute; reflexivity).
      rewrite forallb_forall in Q. apply dget_In in Hm. specialize (Q _ Hm). cbn [snd] in Q. rewrite forallb_forall in Q.
      apply negb_true_iff, Q. apply dget_key. eauto. }
    assert (NA : dget n args = None).
    { eapply arguments_no_component; eauto. right. apply dget_key. eauto. }
    rewrite NA. unfold complete_with. rewrite !mem_complete, NT. destruct (dget n cfg); reflexivity.
Qed.


(** * The shipped file *)
(** boolean readings of the hypotheses, used to evaluate them on the file *)
Definition objects_b (t cfg : dict) : bool :=
  forallb (fun kv => match snd kv, dget (fst kv) cfg with VDict _, Some (VDict _) | VDict _, None => true | VDict _, Some _ => false | _, _ => true end) t.
Lemma objects_P t cfg : objects_b t cfg = true -> components_are_objects t cfg.
Proof.
  intros H comp v c H1 H2. unfold objects_b in H. rewrite forallb_forall in H. apply dget_In in H1. specialize (H _ H1). cbn [fst snd] in H.
  rewrite H2 in H. destruct c; try discriminate. eauto.
Qed.
Definition typed_b (t cfg : dict) : bool :=
  forallb (fun kv => match dget (fst kv) cfg with
    | Some (VDict c) => forallb (fun pv => match dget (fst pv) parameter_properties with Some ts => isinstance (snd pv) ts | None => negb (match snd kv with VDict tc => dmem (fst pv) tc | _ => false end) end) c
    | _ => true end) t.
Lemma typed_P t cfg : typed_b t cfg = true -> forall comp p v0 v, entry t comp p v0 -> entry cfg comp p v -> has_declared_type p v.
Proof.
  intros H comp p v0 v (tc & T1 & T2) (c & C1 & C2). unfold typed_b in H. rewrite forallb_forall in H. apply dget_In in T1. specialize (H _ T1). cbn [fst snd] in H.
  rewrite C1 in H. rewrite forallb_forall in H. apply dget_In in C2. specialize (H _ C2). cbn [fst snd] in H.
  unfold has_declared_type. destruct (dget p parameter_properties) as [ts|]; [eauto|].
  replace (dmem p tc) with true in H by (symmetry; apply dmem_dget; eauto). discriminate.
Qed.
Definition specs_b (cfg : dict) : bool :=
  forallb (fun s => match dget (fst s) cfg with Some (VDict c) => dmem (snd s) c | _ => false end) specs.
Lemma specs_P cfg : specs_b cfg = true -> forall st sp, In (st, sp) specs -> exists v, entry cfg st sp v.
Proof.
  intros H st sp Hi. unfold specs_b in H. rewrite forallb_forall in H. specialize (H _ Hi). cbn [fst snd] in H.
  destruct (dget st cfg) as [[]|] eqn:E; try discriminate. apply dmem_dget in H. destruct H as [v Hv]. exists v. eexists; eauto.
Qed.

(** the three entries of the file the wrapper can build, with the type they name *)
Definition buildable : list (string * string) :=
  [("50", "SolarPVDERThreePhase"); ("250", "SolarPVDERThreePhase"); ("50_balanced", "SolarPVDERThreePhaseBalanced")].
(** the seven it cannot *)
Definition unbuildable : list string :=
  ["50_numba"; "50_type1"; "250_numba"; "10"; "1"; "10_constantVdc"; "50_constantVdc"].

(** no argument but the verbosity is set at the top level of these entries *)
Definition only_verbosity (cfg : dict) : bool :=
  forallb (fun s => String.eqb (fst s) "verbosity" || negb (dmem (fst s) cfg)) DER_argument_spec &&
  match dget "verbosity" cfg with Some (VStr s) => instr s (map fst logging_levels_dict) | None => true | _ => false end.

Lemma shipped_checks id m : In (id, m) buildable ->
  exists cfg t rt, @dget dict id config_der = Some cfg /\ dget m DER_design_template = Some t /\
    objects_b t cfg = true /\ typed_b t cfg = true /\ specs_b cfg = true /\ only_verbosity cfg = true /\
    truthy (get_DER_parent_id cfg) = false /\ update_RT_config config_der (RT_source cfg) = Ok rt /\ check_RT_config rt = Ok tt /\
    entry cfg "basic_specs" "model_type" (VStr m).
Proof.
  cbn. intros [H|[H|[H|[]]]]; injection H as <- <-; do 3 eexists;
  (split; [vm_compute; reflexivity|]); (split; [vm_compute; reflexivity|]); (split; [vm_compute; reflexivity|]); (split; [vm_compute; reflexivity|]);
  (split; [vm_compute; reflexivity|]); (split; [vm_compute; reflexivity|]); (split; [vm_compute; reflexivity|]); (split; [vm_compute; reflexivity|]);
  (split; [vm_compute; reflexivity|]); eexists; split; vm_compute; reflexivity.
Qed.

(** A DER built from one of the three entries "50", "250" and "50_balanced" of the
    shipped file, with any correctly typed arguments, exists, is of the type the
    file names, is attached to the grid the caller supplied, and has for every
    parameter the value of the caller's argument of that name, else the value in
    the file. *)
Theorem C119_shipped_partial : forall id m kwargs cfg t,
  In (id, m) buildable -> @dget dict id config_der = Some cfg -> dget m DER_design_template = Some t ->
  all_well_typed kwargs ->
  (forall v, dget "verbosity" kwargs = Some v -> exists s, v = VStr s /\ In s (map fst logging_levels_dict)) ->
  grid_supplied (negb (String.eqb m "SolarPVDERThreePhaseBalanced")) cfg kwargs ->
  exists b, DERModel_init config_der id kwargs = Ok b /\ s_model (b_setup b) = m /\ as_Z (b_nphases b) = 3%Z /\
    grid_attached (negb (String.eqb m "SolarPVDERThreePhaseBalanced")) cfg kwargs (b_grid b) /\
    forall comp p v0, entry t comp p v0 ->
      (forall w, In p (map fst DER_argument_spec) -> dget p kwargs = Some w -> entry (s_design (b_setup b)) comp p w) /\
      (forall v, (In p (map fst DER_argument_spec) -> dget p kwargs = None) -> entry cfg comp p v ->
         entry (s_design (b_setup b)) comp p v /\ has_declared_type p v).
Proof.
  intros id m kwargs cfg t Hin Hc Ht Hw Hv Hg.
  destruct (shipped_checks _ _ Hin) as (cfg' & t' & rt & Hc' & Ht' & B1 & B2 & B3 & B4 & Hp & Hrt & Hck & (bs & Hb1 & Hb2)).
  assert (cfg' = cfg) by congruence. assert (t' = t) by congruence. subst cfg' t'.
  pose proof (objects_P _ _ B1) as Ho. pose proof (typed_P _ _ B2) as Hty. pose proof (specs_P _ B3) as Hsp.
  unfold only_verbosity in B4. apply andb_true_iff in B4. destruct B4 as [B4 B5]. rewrite forallb_forall in B4.
  assert (NA : forall n df ts, In (n, (df, ts)) DER_argument_spec -> n <> "verbosity" -> dget n cfg = None).
  { intros n df ts Hi Hn. specialize (B4 _ Hi). cbn [fst] in B4. apply orb_true_iff in B4. destruct B4 as [B4|B4].
    - apply String.eqb_eq in B4. contradiction.
    - apply negb_true_iff in B4. destruct (dget n cfg) eqn:E; [|reflexivity]. rewrite (proj2 (dmem_dget _ _)) in B4 by eauto. discriminate. }
  assert (DF : forall n df ts, In (n, (df, ts)) DER_argument_spec -> n <> "verbosity" -> df <> VNone -> exists v, argument cfg kwargs n v).
  { intros n df ts Hi Hn Hd. pose proof (NA _ _ _ Hi Hn) as E. destruct (dget n kwargs) as [v|] eqn:Ek.
    - exists v, df, ts. split; [auto|]. left. split; [auto|]. exact (Hw _ _ _ _ Hi Ek).
    - exists df, df, ts. split; [auto|]. right. right. auto. }
  assert (Hlv : exists s, argument cfg kwargs "verbosity" (VStr s) /\ In s (map fst logging_levels_dict)).
  { assert (Hi : In ("verbosity", (VStr "INFO", [TStr; TInt])) DER_argument_spec) by (cbn; tauto).
    destruct (dget "verbosity" kwargs) as [v|] eqn:Ek.
    - destruct (Hv _ eq_refl) as (s & -> & Hs). exists s. split; [|auto]. do 2 eexists. split; [exact Hi|]. left. auto.
    - destruct (dget "verbosity" cfg) as [v|] eqn:Ec.
      + destruct v; try discriminate. exists s. split; [|now apply instr_iff]. do 2 eexists. split; [exact Hi|]. right. left. auto.
      + exists "INFO". split; [|cbn; tauto]. do 2 eexists. split; [exact Hi|]. right. right. repeat split; auto. discriminate. }
  destruct (setup_accepts m config_der id kwargs cfg t rt Ht Hc Hp Ho Hsp Hty) as (s & Es & Hm & _); auto.
  { apply (DF "identifier" (VStr "") [TStr]); [cbn; tauto|discriminate|discriminate]. }
  assert (Bu : exists b, create_DER_model m config_der id kwargs = Ok b /\ b_setup b = s /\ as_Z (b_nphases b) = 3%Z
    /\ grid_attached (negb (String.eqb m "SolarPVDERThreePhaseBalanced")) cfg kwargs (b_grid b)).
  { apply (C41_buildable_types_partial m config_der id kwargs s cfg t); auto.
    - cbn in Hin |- *. destruct Hin as [E|[E|[E|[]]]]; injection E as <- <-; tauto.
    - intros n [<-|[<-|[]]]; [apply (DF _ (VBool true) [TBool])|apply (DF _ (VBool false) [TBool])]; try discriminate; cbn; tauto. }
  destruct Bu as (b & Hb & Hbs & Hn & Ha). exists b.
  split; [|split; [|split; [|split]]]; try (rewrite Hbs); auto.
  - unfold DERModel_init, wrapper_get_config, get_DER_config, get_DER_parent_config. unfold dsub at 1. rewrite Hc. cbn [bindR]. rewrite Hp. cbn [bindR].
    rewrite (specs_kept _ _ Hsp). cbn [bindR]. unfold dsub. rewrite Hb1. cbn [bindR pget]. rewrite Hb2. exact Hb.
  - destruct (C38_created_der_partial m config_der id kwargs s cfg t Es Hc Ht Ho) as (args & HA & HE).
    intros comp p v0 He. destruct (HE _ _ _ He) as (src & v & Hsup & Hd & _ & Hdt).
    assert (NV : p <> "verbosity").
    { intros ->. destruct He as (c & E1 & E2). destruct (template_parameter_declared t comp c "verbosity" v0 (templates_ok _ _ Ht) E1 E2) as [ts X]. vm_compute in X. discriminate X. }
    split.
    + intros w Hi Hk. apply dget_key in Hi. destruct Hi as [[df ts] Hi]. apply dget_In in Hi.
      assert (AA : dget p args = Some w) by (apply HA; exists df, ts; split; [auto|]; left; split; [auto|exact (Hw _ _ _ _ Hi Hk)]).
      inversion Hsup; subst; congruence.
    + intros v' Hk Hcv. pose proof (Hty _ _ _ _ He Hcv) as Tv. split; [|exact Tv].
      assert (AN : dget p args = None).
      { destruct (dget p args) as [w|] eqn:E; [|reflexivity]. exfalso. apply HA in E. destruct E as (df & ts & Hi & Hx).
        assert (Kn : dget p kwargs = None) by (apply Hk, (in_map fst _ _ Hi)). pose proof (NA _ _ _ Hi NV) as Cn.
        destruct Hx as [[X _]|[(_ & X & _)|(_ & _ & X & Nd)]]; try congruence.
        destruct He as (c & E1 & E2). destruct (template_parameter_declared t comp c p v0 (templates_ok _ _ Ht) E1 E2) as [tys X'].
        assert (Q : forallb (fun s => match dget (fst s) parameter_properties with Some _ => match fst (snd s) with VNone => true | _ => false end | None => true end) DER_argument_spec = true) by (vm_compute; reflexivity).
        rewrite forallb_forall in Q. specialize (Q _ Hi). cbn [fst snd] in Q. rewrite X' in Q. destruct df; try discriminate. congruence. }
      inversion Hsup; subst; try congruence.
      * match goal with E : entry cfg comp p v |- _ => rename E into Ev end.
        destruct Hcv as (c1 & X1 & X2), Ev as (c2 & Y1 & Y2). assert (c1 = c2) by congruence. subst. assert (v' = v) by congruence. now subst.
      * exfalso. match goal with E : no_entry cfg comp p |- _ => exact (E _ Hcv) end.
      * exfalso. match goal with E : no_entry cfg comp p |- _ => exact (E _ Hcv) end.
Qed.
Print Assumptions C119_shipped_partial.

(** None of the other seven entries can be built, whatever the arguments: the
    three that inherit from another entry ("50_numba", "50_type1", "250_numba")
    fail while the parent is looked up, the single-phase ones and the constant
    DC-voltage ones fail as their type does (C41). *)
Theorem C119_shipped_refuted : forall id kwargs b,
  In id unbuildable -> (exists cfg, @dget dict id config_der = Some cfg) /\ DERModel_init config_der id kwargs <> Ok b.
Proof.
  intros id kwargs b Hin. split; [cbn in Hin; decompose [or] Hin; subst; try contradiction; eexists; vm_compute; reflexivity|].
  assert (C : (exists e, wrapper_get_config config_der id = Raise e) \/
    exists m, In m ["SolarPVDERSinglePhase"; "SolarPVDERSinglePhaseConstantVdc"; "SolarPVDERThreePhaseNoVrmsFilter"; "SolarPVDERThreePhaseConstantVdc"] /\
      exists c bs, wrapper_get_config config_der id = Ok c /\ dsub "basic_specs" c = Ok bs /\ pget "model_type" bs = Ok (VStr m)).
  { cbn in Hin. decompose [or] Hin; subst; try contradiction;
    try (left; eexists; vm_compute; reflexivity);
    right; eexists; (split; [|do 2 eexists; (split; [vm_compute; reflexivity|]); split; vm_compute; reflexivity]); cbn; tauto. }
  unfold DERModel_init. destruct C as [[e ->]|(m & Hm & c & bs & -> & E1 & E2)]; [discriminate|].
  cbn [bindR]. rewrite E1. cbn [bindR]. rewrite E2.
  assert (A : advertised m) by (cbn in Hm; decompose [or] Hm; subst; try contradiction; vm_compute; tauto).
  destruct (C41_advertised_types_refuted m config_der id kwargs A) as [N S1].
  cbn in Hm. destruct Hm as [<-|[<-|[<-|[<-|[]]]]]; cbn [bindR].
  - apply S1. cbn; tauto.
  - apply S1. cbn; tauto.
  - rewrite N by (cbn; tauto). discriminate.
  - rewrite N by (cbn; tauto). discriminate.
Qed.
Print Assumptions C119_shipped_refuted.

(** Together they are the DER entries of the file; the two others are
    ride-through settings. *)
Theorem C119_entries : forall id,
  In id (map fst buildable) \/ In id unbuildable \/ In id ["LVRT_1547cat3"; "VRT_delay_cat3"] <-> exists cfg, @dget dict id config_der = Some cfg.
Proof.
  intros id. rewrite <- dget_key. vm_compute. intuition.
Qed.
Print Assumptions C119_entries.

Example C119_hypotheses_met :
  all_well_typed [("gridModel", VGrid); ("Srated", VFloat 60000)] /\
  forallb (fun im => match DERModel_init config_der (fst im) [("gridModel", VGrid); ("Srated", VFloat 60000)] with
           | Ok b => match dget "inverter_ratings" (s_design (b_setup b)) with
                     | Some (VDict c) => match dget "Srated" c, dget "Vdcrated" c with Some (VFloat x), Some (VFloat y) => Qeq_bool x 60000 && Qeq_bool y (if String.eqb (fst im) "250" then 750 else 550) | _, _ => false end
                     | _ => false end
           | Raise _ => false end) buildable = true.
Proof.
  split.
  - intros n df ts v Hi Hd. cbn [dget] in Hd. destruct (String.eqb n "gridModel") eqn:E1.
    + apply String.eqb_eq in E1. subst. injection Hd as <-. cbn in Hi. decompose [or] Hi; try contradiction; match goal with X : _ = _ |- _ => now inversion X end.
    + destruct (String.eqb n "Srated") eqn:E2; [|discriminate]. apply String.eqb_eq in E2. subst. injection Hd as <-.
      cbn in Hi. decompose [or] Hi; try contradiction; match goal with X : _ = _ |- _ => now inversion X end.
  - vm_compute. reflexivity.
Qed.
