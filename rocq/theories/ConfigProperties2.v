(** Properties C39, C40, C41: argument resolution, inheritance, model types. *)
From Verif Require Import Base ConfigValues ConfigData ConfigModel ConfigSpec ConfigLemmas ConfigProofs ConfigProperties.
Open Scope string_scope.

(** * C39 *)
(** All given values of recognised names have a declared type. *)
Definition all_well_typed (d : dict) : Prop :=
  forall n default types v, In (n, (default, types)) DER_argument_spec -> dget n d = Some v -> isinstance v types = true.

(** If nothing is wrongly typed, arguments resolve as intended and nothing else
    is produced. *)
Theorem C39_argument_resolution_partial :
  forall cfg kwargs, all_well_typed cfg -> all_well_typed kwargs ->
  forall n v, dget n (get_DER_arguments cfg kwargs) = Some v <-> argument_intended cfg kwargs n v.
Proof.
  intros cfg kwargs Tc Tk n v. rewrite argument_iff. unfold argument, argument_intended, well_typed_at.
  split; intros (df & ts & Hin & H); exists df, ts; split; auto.
  - destruct H as [H | [(H & H' & Hi) | (H & H' & -> & N)]]; [tauto| |].
    + right; left. split; [intros w [Hw _]; congruence|auto].
    + right; right. repeat split; auto; intros w [Hw _]; congruence.
  - destruct H as [H | [(H & H' & Hi) | (H & H' & -> & N)]]; [tauto| |].
    + right; left. split; [|auto]. destruct (dget n kwargs) as [w|] eqn:E; auto.
      exfalso. apply (H w). split; auto. eapply Tk; eauto.
    + right; right. repeat split; auto.
      * destruct (dget n kwargs) as [w|] eqn:E; auto. exfalso. apply (H w). split; auto. eapply Tk; eauto.
      * destruct (dget n cfg) as [w|] eqn:E; auto. exfalso. apply (H' w). split; auto. eapply Tc; eauto.
Qed.
Print Assumptions C39_argument_resolution_partial.

(** In general: a keyword argument that is given decides alone, and a wrongly
    typed value makes the argument disappear - it neither falls back to the
    configuration nor to the default. *)
Theorem C39_exact_resolution_partial :
  forall cfg kwargs n v, dget n (get_DER_arguments cfg kwargs) = Some v <->
  exists default types, In (n, (default, types)) DER_argument_spec /\
    ((dget n kwargs = Some v /\ isinstance v types = true) \/
     (dget n kwargs = None /\ dget n cfg = Some v /\ isinstance v types = true) \/
     (dget n kwargs = None /\ dget n cfg = None /\ v = default /\ default <> VNone)).
Proof. intros. apply argument_iff. Qed.
Print Assumptions C39_exact_resolution_partial.

(** Intended: the file's verbosity.  Actual: no verbosity, and the creation of
    the DER fails with KeyError; likewise an integer for a flag (standAlone=1). *)
Theorem C39_wrong_type_refuted :
  exists cfg kwargs, dget "50" file_ex = Some cfg /\
    argument_intended cfg kwargs "verbosity" (VStr "INFO") /\
    dget "verbosity" (get_DER_arguments cfg kwargs) = None /\
    setup_DER "SolarPVDERThreePhase" file_ex "50" kwargs = Raise KeyError /\
    configure_DER "SolarPVDERThreePhase" file_ex "50" [("gridModel", VGrid); ("standAlone", VInt 1)] = Raise KeyError.
Proof.
  eexists. exists [("gridModel", VGrid); ("verbosity", VFloat (3#2))]. split; [reflexivity|].
  split; [|vm_compute; auto].
  exists (VStr "INFO"), [TStr; TInt]. split; [cbn; tauto|]. right; left. split; [|split; reflexivity].
  intros w [Hw Hi]. cbn in Hw. injection Hw as <-. discriminate.
Qed.
Print Assumptions C39_wrong_type_refuted.

Example C39_hypotheses_met : exists cfg, dget "50" file_ex = Some cfg /\ all_well_typed cfg /\ all_well_typed kw_ex /\
  dget "standAlone" (get_DER_arguments cfg kw_ex) = Some (VBool true) /\
  dget "verbosity" (get_DER_arguments cfg kw_ex) = Some (VStr "INFO").
Proof.
  assert (A : forall d, forallb (fun s => match dget (fst s) d with Some v => isinstance v (snd (snd s)) | None => true end)
     DER_argument_spec = true -> all_well_typed d).
  { intros d H n df ts v Hin Hv. rewrite forallb_forall in H. apply H in Hin. cbn in Hin. now rewrite Hv in Hin. }
  eexists. split; [reflexivity|]. split; [apply A; reflexivity|]. split; [apply A; reflexivity|]. split; reflexivity.
Qed.

(** * C40 *)
Definition spec_objects (cfg : dict) : Prop :=
  forall st c, In st ["basic_specs"; "inverter_ratings"] -> dget st cfg = Some c -> exists d, c = VDict d.
Definition specs : list (string * string) :=
  [("basic_specs", "model_type"); ("inverter_ratings", "Srated"); ("inverter_ratings", "Vrmsrated")].

Lemma has_spec_cases cfg st sp : (forall c, dget st cfg = Some c -> exists d, c = VDict d) ->
  (has_spec cfg st sp = Ok true /\ exists v, entry cfg st sp v) \/ (has_spec cfg st sp = Ok false /\ no_entry cfg st sp).
Proof.
  intros H. unfold has_spec. destruct (dget st cfg) as [c|] eqn:E.
  - destruct (H _ eq_refl) as [d ->]. cbn. destruct (dmem sp d) eqn:M.
    + left. split; auto. apply dmem_dget in M as [v M]. exists v, d. auto.
    + right. split; auto. intros v (d' & H1 & H2). apply dmem_false in M. congruence.
  - right. split; auto. intros v (d & H1 & _). congruence.
Qed.

Lemma update_spec_cases parent cfg st sp : spec_objects cfg -> spec_objects parent -> In (st, sp) specs ->
  (exists c v, update_spec parent cfg (st, sp) = Ok c /\ spec_objects c /\ inherited cfg parent st sp v /\ entry c st sp v /\
     (forall comp p w, (comp, p) <> (st, sp) -> entry c comp p w <-> entry cfg comp p w)) \/
  (update_spec parent cfg (st, sp) = Raise ValueError /\ no_entry cfg st sp /\ no_entry parent st sp).
Proof.
  intros Oc Op Hin.
  assert (Hst : In st ["basic_specs"; "inverter_ratings"])
    by (cbn in Hin; intuition; match goal with E : _ = (st, sp) |- _ => injection E as <- <- end; cbn; auto).
  unfold update_spec. destruct (has_spec_cases cfg st sp) as [[-> [v Hv]] | [-> N]]; [intros; eapply Oc; eauto| |]; cbn [bindR].
  - left. exists cfg, v. split; auto. split; auto. split; [now left|]. split; auto. intros; tauto.
  - destruct (has_spec_cases parent st sp) as [[-> [v Hv]] | [-> Np]]; [intros; eapply Op; eauto| |]; cbn [bindR].
    + left. pose proof Hv as Hv'. destruct Hv' as (pd & H1 & H2). unfold dsub. rewrite H1. cbn [bindR pget]. rewrite H2. cbn [bindR].
      assert (K : forall base, (forall p, dget p base = match dget st cfg with Some (VDict c) => dget p c | _ => None end) ->
        spec_objects (dset st (VDict (dset sp v base)) cfg) /\ inherited cfg parent st sp v /\
        entry (dset st (VDict (dset sp v base)) cfg) st sp v /\
        (forall comp p w, (comp, p) <> (st, sp) -> entry (dset st (VDict (dset sp v base)) cfg) comp p w <-> entry cfg comp p w)).
      { intros base Hb. split; [|split; [right; auto|split]].
        - intros st' c' Hst' Hc'. destruct (string_dec st' st) as [->|Ne].
          + rewrite dget_dset_same in Hc'. injection Hc' as <-. eauto.
          + rewrite dget_dset_other in Hc' by auto. eapply Oc; eauto.
        - exists (dset sp v base). now rewrite !dget_dset_same.
        - intros comp p w Ne. unfold entry. destruct (string_dec comp st) as [->|Ne'].
          + assert (p <> sp) by congruence. rewrite dget_dset_same. split.
            * intros (c & Hc & Hp). injection Hc as <-. rewrite dget_dset_other, Hb in Hp by auto.
              destruct (dget st cfg) as [c0|] eqn:Ec; [|discriminate]. destruct (Oc _ _ Hst Ec) as [d0 ->]. eauto.
            * intros (c & Hc & Hp). exists (dset sp v base). split; auto.
              rewrite dget_dset_other, Hb, Hc by auto. auto.
          + rewrite dget_dset_other by auto. tauto. }
      destruct (dget st cfg) as [c0|] eqn:Ec.
      * destruct (Oc _ _ Hst Ec) as [d0 ->]. exists (dset st (VDict (dset sp v d0)) cfg), v. split; auto.
      * exists (dset st (VDict (dset sp v [])) cfg), v. split; auto.
    + right. auto.
Qed.

(** Function level: each of the three specifications is taken from the DER's
    entry, else from the parent, everything else is unchanged; ValueError is
    raised iff one is missing from both, and nothing else is raised. *)
Theorem C40_specification_inheritance_partial :
  forall cfg parent, spec_objects cfg -> spec_objects parent ->
  (forall c, update_DER_config_specs cfg parent = Ok c ->
     (forall st sp, In (st, sp) specs -> exists v, inherited cfg parent st sp v /\ entry c st sp v) /\
     (forall comp p v, ~ In (comp, p) specs -> entry c comp p v <-> entry cfg comp p v)) /\
  (update_DER_config_specs cfg parent = Raise ValueError <->
     exists st sp, In (st, sp) specs /\ no_entry cfg st sp /\ no_entry parent st sp) /\
  (forall e, update_DER_config_specs cfg parent = Raise e -> e = ValueError).
Proof.
  intros cfg parent Oc Op. unfold update_DER_config_specs, spec_config. cbn [foldR].
  assert (P1 : ("basic_specs", "model_type") <> ("inverter_ratings", "Srated")) by congruence.
  assert (P2 : ("basic_specs", "model_type") <> ("inverter_ratings", "Vrmsrated")) by congruence.
  assert (P3 : ("inverter_ratings", "Srated") <> ("inverter_ratings", "Vrmsrated")) by congruence.
  destruct (update_spec_cases parent cfg "basic_specs" "model_type" Oc Op) as [(c1 & v1 & E1 & O1 & I1 & M1 & K1) | (E1 & N1 & N1')];
    [cbn; auto| |]; rewrite E1; cbn [bindR].
  2: { split; [discriminate|]. split; [|intros; congruence]. split; auto. intros _. exists "basic_specs", "model_type". cbn; auto. }
  destruct (update_spec_cases parent c1 "inverter_ratings" "Srated" O1 Op) as [(c2 & v2 & E2 & O2 & I2 & M2 & K2) | (E2 & N2 & N2')];
    [cbn; auto| |]; rewrite E2; cbn [bindR].
  2: { split; [discriminate|]. split; [|intros; congruence]. split; auto. intros _. exists "inverter_ratings", "Srated".
       split; [cbn; auto|]. split; auto. intros v Hv. apply (N2 v). apply K1; auto. }
  destruct (update_spec_cases parent c2 "inverter_ratings" "Vrmsrated" O2 Op) as [(c3 & v3 & E3 & O3 & I3 & M3 & K3) | (E3 & N3 & N3')];
    [cbn; auto| |]; rewrite E3; cbn [bindR].
  2: { split; [discriminate|]. split; [|intros; congruence]. split; auto. intros _. exists "inverter_ratings", "Vrmsrated".
       split; [cbn; auto|]. split; auto. intros v Hv. apply (N3 v). apply K2; auto. apply K1; auto. }
  assert (I2' : inherited cfg parent "inverter_ratings" "Srated" v2).
  { destruct I2 as [I2 | [I2 I2']]; [left; apply K1; auto | right; split; auto].
    intros v Hv. apply (I2 v). apply K1; auto. }
  assert (I3' : inherited cfg parent "inverter_ratings" "Vrmsrated" v3).
  { destruct I3 as [I3 | [I3 I3']]; [left; apply K1; auto; apply K2; auto | right; split; auto].
    intros v Hv. apply (I3 v). apply K2; auto. apply K1; auto. }
  assert (M1' : entry c3 "basic_specs" "model_type" v1) by (apply K3; auto; apply K2; auto).
  assert (M2' : entry c3 "inverter_ratings" "Srated" v2) by (apply K3; auto).
  split; [|split; [split; [discriminate|]|discriminate]].
  - intros c Hc. injection Hc as <-. split.
    + intros st sp Hin. cbn in Hin. destruct Hin as [H|[H|[H|[]]]]; injection H as <- <-; eauto.
    + intros comp p v Hn. cbn in Hn.
      rewrite (K3 comp p v), (K2 comp p v), (K1 comp p v); [tauto| | |]; intros E; injection E as -> ->; apply Hn; auto.
  - intros (st & sp & Hin & Nc & Np). exfalso.
    assert (X : forall v, inherited cfg parent st sp v -> False) by (intros v [I | [_ I]]; [exact (Nc _ I) | exact (Np _ I)]).
    cbn in Hin. destruct Hin as [H|[H|[H|[]]]]; injection H as <- <-; eapply X; eauto.
Qed.
Print Assumptions C40_specification_inheritance_partial.

(** End to end inheritance never works: whatever the file, the ID, the class and
    the keyword arguments, a configuration that names a parent cannot be created,
    neither directly nor through the wrapper. *)
Theorem C40_parent_config_refuted :
  forall model (file : cfgfile) id kwargs (cfg : dict) p, In model (map fst DER_design_template) ->
  @dget dict id file = Some cfg -> dget "parent_config" cfg = Some p -> truthy p = true ->
  setup_DER model file id kwargs = Raise AttributeError /\
  configure_DER model file id kwargs = Raise AttributeError /\
  DERModel_init file id kwargs = Raise AttributeError.
Proof.
  intros model file id kwargs cfg p Hm Hc Hp Ht. apply dget_key in Hm as [t Hm].
  assert (Hpar : forall c : dict, c = cfg -> get_DER_parent_config false file (get_DER_parent_id c) = Raise AttributeError).
  { intros c ->. unfold get_DER_parent_config, get_DER_parent_id.
    destruct (dget "parent_config" cfg) as [q|]; [|discriminate]. injection Hp as ->. now rewrite Ht. }
  assert (E : setup_DER model file id kwargs = Raise AttributeError).
  { unfold setup_DER, create_DER_config, create_template, get_DER_config, dsub. rewrite Hm. cbn [bindR].
    destruct (dget id file) as [c|]; [|discriminate]. injection Hc as ->. cbn [bindR].
    rewrite (Hpar cfg) by auto. reflexivity. }
  split; auto. split.
  - unfold configure_DER. rewrite E. reflexivity.
  - unfold DERModel_init, wrapper_get_config, get_DER_config, dsub.
    destruct (dget id file) as [c|]; [|discriminate]. injection Hc as ->. cbn [bindR].
    rewrite (Hpar cfg) by auto. reflexivity.
Qed.
Print Assumptions C40_parent_config_refuted.

(** the shipped configuration 50_type1 is one of them, although the inherited
    configuration is complete *)
Example C40_hypotheses_met :
  DERModel_init file_ex "50_type1" [("gridModel", VGrid)] = Raise AttributeError /\
  (exists cfg parent, dget "50_type1" file_ex = Some cfg /\ dget "50" file_ex = Some parent /\
     spec_objects cfg /\ spec_objects parent /\
     exists c, update_DER_config_specs cfg parent = Ok c /\ entry c "inverter_ratings" "Srated" (VFloat 50000)
        /\ entry c "inverter_ratings" "Ioverload" (VFloat (11#10))) /\
  is_ok (DERModel_init file_ex "50" [("gridModel", VGrid)]) = true.
Proof.
  split; [vm_compute; reflexivity|]. split; [|vm_compute; reflexivity].
  eexists. eexists. split; [reflexivity|]. split; [reflexivity|].
  split; [|split].
  1,2: intros st c [<-|[<-|[]]] H; vm_compute in H; try discriminate; injection H as <-; eauto.
  eexists. split; [vm_compute; reflexivity|]. split; eexists; split; reflexivity.
Qed.

(** * C41 *)
Definition advertised (m : string) : Prop := In m (map fst DER_design_template).

Theorem C41_unknown_type_partial :
  forall m file id kwargs, ~ advertised m -> create_DER_model m file id kwargs = Raise ValueError.
Proof.
  intros m file id kwargs N. unfold create_DER_model.
  assert (A : forall l, (forall x, In x l -> advertised x) -> existsb (String.eqb m) l = false).
  { intros l Hl. destruct (existsb (String.eqb m) l) eqn:E; auto. apply existsb_exists in E as (x & Hx & Ex).
    apply String.eqb_eq in Ex. subst. exfalso. auto. }
  rewrite !A; [reflexivity| |]; intros x Hx; unfold advertised; cbn in Hx |- *; intuition (subst; auto 10).
Qed.
Print Assumptions C41_unknown_type_partial.

