(** Property C41: which model types can be constructed. *)
From Verif Require Import Base ConfigValues ConfigData ConfigModel ConfigSpec ConfigLemmas ConfigProofs ConfigProperties ConfigProperties2.
Open Scope string_scope.

(** Refuted for four of the seven advertised types: two raise NameError for every
    input, and the single-phase ones never get through their constructor - if
    their settings are accepted they raise KeyError. *)
Theorem C41_advertised_types_refuted :
  forall m file id kwargs, advertised m ->
  (In m ["SolarPVDERThreePhaseNoVrmsFilter"; "SolarPVDERThreePhaseConstantVdc"] ->
     create_DER_model m file id kwargs = Raise NameError) /\
  (In m ["SolarPVDERSinglePhase"; "SolarPVDERSinglePhaseConstantVdc"] ->
     (forall b, create_DER_model m file id kwargs <> Ok b) /\
     (forall s cfg t, setup_DER m file id kwargs = Ok s -> @dget dict id file = Some cfg ->
        dget m DER_design_template = Some t -> components_are_objects t cfg ->
        create_DER_model m file id kwargs = Raise KeyError)).
Proof.
  intros m file id kwargs _. split; intros Hin; cbn in Hin.
  - destruct Hin as [<-|[<-|[]]]; reflexivity.
  - assert (HI : initialize_basic_specs m = Raise KeyError)
      by (destruct Hin as [<-|[<-|[]]]; vm_compute; reflexivity).
    assert (HC : create_DER_model m file id kwargs = configure_DER m file id kwargs)
      by (destruct Hin as [<-|[<-|[]]]; reflexivity).
    rewrite HC. unfold configure_DER. split.
    + intros b. destruct (setup_DER m file id kwargs) as [s|]; cbn [bindR]; [|discriminate].
      destruct (dsub "basic_options" (s_design s)) as [bo|]; cbn [bindR]; [|discriminate].
      destruct (pget "Sinsol" bo); cbn [bindR]; [|discriminate]. rewrite HI. discriminate.
    + intros s cfg t Hs Hc Ht Ho. rewrite Hs. cbn [bindR].
      destruct (C38_created_der_partial _ _ _ _ _ _ _ Hs Hc Ht Ho) as (args & _ & A).
      assert (E : exists v0, entry t "basic_options" "Sinsol" v0).
      { apply (required_P t (templates_ok _ _ Ht)). cbn; tauto. }
      destruct E as [v0 E]. destruct (A _ _ _ E) as (src & v & _ & (bo & H1 & H2) & _).
      unfold dsub. rewrite H1. cbn [bindR pget]. rewrite H2. cbn [bindR]. rewrite HI. reflexivity.
Qed.
Print Assumptions C41_advertised_types_refuted.

(** The grid is supplied: a grid model for a stand-alone DER, otherwise the
    frequency and the voltage of every phase ([unbalanced] models) or of phase A. *)
Definition grid_supplied (unbalanced : bool) (cfg kwargs : dict) : Prop :=
  (exists v, argument cfg kwargs "standAlone" v /\ truthy v = true /\
     exists g, argument cfg kwargs "gridModel" g) \/
  (exists v, argument cfg kwargs "standAlone" v /\ truthy v = false /\
     forall n, In n (["gridFrequency"; "gridVoltagePhaseA"] ++
                     if unbalanced then ["gridVoltagePhaseB"; "gridVoltagePhaseC"] else [])%list ->
       exists w, argument cfg kwargs n w).

(** What the built DER keeps of it: nothing for a stand-alone DER, otherwise the
    frequency and phase voltages supplied, the missing phases turned by 120
    degrees from phase A. *)
Definition grid_attached (unbalanced : bool) (cfg kwargs : dict) (g : option grid_meas) : Prop :=
  match g with
  | None => exists v, argument cfg kwargs "standAlone" v /\ truthy v = true
  | Some (GridMeas f a b c) =>
    (exists v, argument cfg kwargs "standAlone" v /\ truthy v = false) /\
    argument cfg kwargs "gridFrequency" f /\
    (exists w, a = Supplied w /\ argument cfg kwargs "gridVoltagePhaseA" w) /\
    (if unbalanced
     then (exists w, b = Some (Supplied w) /\ argument cfg kwargs "gridVoltagePhaseB" w) /\
          (exists w, c = Some (Supplied w) /\ argument cfg kwargs "gridVoltagePhaseC" w)
     else b = Some RotB /\ c = Some RotC)
  end.

(** The other three types get through the configuration phase of the constructor
    for every file, ID and keyword arguments whose settings are accepted, whose
    flags resolve and which supply the grid. *)
Theorem C41_buildable_types_partial :
  forall m file id kwargs s cfg t,
  In m ["SolarPVDERThreePhase"; "SolarPVDERThreePhaseBalanced"; "SolarPVDERThreePhaseNumba"] ->
  setup_DER m file id kwargs = Ok s -> @dget dict id file = Some cfg ->
  dget m DER_design_template = Some t -> components_are_objects t cfg ->
  (forall n, In n ["steadyStateInitialization"; "allowUnbalancedM"] -> exists v, argument cfg kwargs n v) ->
  grid_supplied (negb (String.eqb m "SolarPVDERThreePhaseBalanced")) cfg kwargs ->
  exists b, create_DER_model m file id kwargs = Ok b /\ b_setup b = s /\ as_Z (b_nphases b) = 3%Z
    /\ grid_attached (negb (String.eqb m "SolarPVDERThreePhaseBalanced")) cfg kwargs (b_grid b).
Proof.
  intros m file id kwargs s cfg t Hin Hs Hc Ht Ho Hfl Hg.
  assert (HI : exists n u, initialize_basic_specs m = Ok (n, VInt 3, VBool u) /\
            u = negb (String.eqb m "SolarPVDERThreePhaseBalanced"))
    by (cbn in Hin; destruct Hin as [<-|[<-|[<-|[]]]]; do 2 eexists; split; vm_compute; reflexivity).
  destruct HI as (n & u & HI & Hu). rewrite <- Hu in Hg |- *.
  assert (HC : create_DER_model m file id kwargs = configure_DER m file id kwargs)
      by (cbn in Hin; destruct Hin as [<-|[<-|[<-|[]]]]; reflexivity).
  rewrite HC. unfold configure_DER. rewrite Hs. cbn [bindR].
  destruct (C38_created_der_partial _ _ _ _ _ _ _ Hs Hc Ht Ho) as (args' & _ & A).
  pose proof (setup_inv _ _ _ _ _ Hs) as (t' & cfg' & Ht' & Hc' & _ & _ & Ha & _).
  assert (t' = t) by congruence. assert (cfg' = cfg) by congruence. subst t' cfg'.
  assert (G : forall k v, dget k (s_args s) = Some v <-> argument cfg kwargs k v).
  { intros k v. rewrite Ha, argument_iff. now apply (complete_arguments m). }
  assert (BO : exists bo, dget "basic_options" (s_design s) = Some (VDict bo) /\
     forall p, In p ["Sinsol"; "t_stable"; "m_steady_state"; "current_gradient_limiter"; "Vrms_measurement_type"] ->
       exists v, dget p bo = Some v).
  { assert (E : forall p, In p ["Sinsol"; "t_stable"; "m_steady_state"; "current_gradient_limiter"; "Vrms_measurement_type"] ->
       exists v, entry (s_design s) "basic_options" p v).
    { intros p Hp. destruct (required_P t (templates_ok _ _ Ht) "basic_options" p) as [v0 E0].
      - cbn in Hp |- *. intuition (subst; auto 20).
      - destruct (A _ _ _ E0) as (src & v & _ & E & _). eauto. }
    destruct (E "Sinsol" ltac:(cbn; tauto)) as (v & bo & H1 & H2). exists bo. split; auto.
    intros p Hp. destruct (E p Hp) as (v' & bo' & H1' & H2'). exists v'. congruence. }
  destruct BO as (bo & Hbo & BO). unfold dsub at 1. rewrite Hbo. cbn [bindR pget].
  destruct (BO "Sinsol" ltac:(cbn; tauto)) as [v1 ->]. cbn [bindR]. rewrite HI. cbn [bindR].
  unfold initialize_basic_options, dsub at 1. rewrite Hbo. cbn [bindR pget].
  destruct (BO "t_stable" ltac:(cbn; tauto)) as [v2 ->]. cbn [bindR].
  destruct (BO "m_steady_state" ltac:(cbn; tauto)) as [v3 ->]. cbn [bindR].
  destruct (BO "current_gradient_limiter" ltac:(cbn; tauto)) as [v4 ->]. cbn [bindR].
  destruct (BO "Vrms_measurement_type" ltac:(cbn; tauto)) as [v5 ->]. cbn [bindR].
  destruct (Hfl "steadyStateInitialization" ltac:(cbn; tauto)) as [ss Hss]. apply G in Hss.
  destruct (Hfl "allowUnbalancedM" ltac:(cbn; tauto)) as [am Ham]. apply G in Ham.
  assert (SA : exists sa, dget "standAlone" (s_args s) = Some sa)
    by (destruct Hg as [(v & Hv & _) | (v & Hv & _)]; exists v; now apply G).
  destruct SA as [sa Hsa]. unfold initialize_flags, dsub. rewrite Hsa, Hss, Ham. cbn [bindR].
  unfold attach_grid_model, initialize_grid_measurements. cbn [truthy as_Z].
  destruct Hg as [(v & Hv & Tv & g & Hgm) | (v & Hv & Tv & Hn)]; apply G in Hv;
    assert (v = sa) by congruence; subst v; rewrite Tv.
  - apply G in Hgm. unfold dmem. rewrite Hgm. cbn [bindR]. eexists. split; [reflexivity|]. split; [reflexivity|]. split; [reflexivity|]. cbn [b_grid grid_attached].
    exists sa. split; [now apply G|exact Tv].
  - cbn [bindR]. unfold need.
    destruct (Hn "gridFrequency" ltac:(apply in_or_app; left; cbn; tauto)) as [f Hf]. apply G in Hf. rewrite Hf. cbn [bindR].
    destruct (Hn "gridVoltagePhaseA" ltac:(apply in_or_app; left; cbn; tauto)) as [va Hva]. apply G in Hva. rewrite Hva. cbn [bindR].
    replace (2 <=? 3)%Z with true by reflexivity. replace (3 <=? 3)%Z with true by reflexivity.
    destruct u.
    + destruct (Hn "gridVoltagePhaseB" ltac:(apply in_or_app; right; cbn; tauto)) as [vb Hvb]. apply G in Hvb. rewrite Hvb. cbn [bindR].
      destruct (Hn "gridVoltagePhaseC" ltac:(apply in_or_app; right; cbn; tauto)) as [vc Hvc]. apply G in Hvc. rewrite Hvc. cbn [bindR].
      eexists. split; [reflexivity|]. split; [reflexivity|]. split; [reflexivity|]. cbn [b_grid grid_attached].
    split; [exists sa; split; [now apply G|exact Tv]|]. split; [now apply G|]. split; [exists va; split; [reflexivity|now apply G]|]. split; [exists vb|exists vc]; (split; [reflexivity|now apply G]).
    + cbn [bindR]. eexists. split; [reflexivity|]. split; [reflexivity|]. split; [reflexivity|]. cbn [b_grid grid_attached].
    split; [exists sa; split; [now apply G|exact Tv]|]. split; [now apply G|]. split; [exists va; split; [reflexivity|now apply G]|]. split; reflexivity.
Qed.
Print Assumptions C41_buildable_types_partial.

(** Concrete cases: the three buildable types with one and the same file; the
    single-phase types get through their settings and then fail. *)
Definition file_single : cfgfile :=
  [("10", [("basic_specs", VDict [("model_type", VStr "SolarPVDERSinglePhase")]);
           ("inverter_ratings", VDict [("Srated", VFloat 10000); ("Vrmsrated", VFloat 250)])])].
Example C41_hypotheses_met :
  (forall m, In m ["SolarPVDERThreePhase"; "SolarPVDERThreePhaseBalanced"; "SolarPVDERThreePhaseNumba"] ->
     is_ok (create_DER_model m file_ex "50" [("gridModel", VGrid)]) = true /\
     create_DER_model m file_ex "50" [("standAlone", VBool false); ("gridFrequency", VFloat 377)] = Raise ValueError) /\
  (forall m, In m ["SolarPVDERSinglePhase"; "SolarPVDERSinglePhaseConstantVdc"] ->
     is_ok (setup_DER m file_single "10" [("gridModel", VGrid)]) = true /\
     create_DER_model m file_single "10" [("gridModel", VGrid)] = Raise KeyError) /\
  DERModel_init file_single "10" [("gridModel", VGrid)] = Raise KeyError /\
  exists cfg, @dget dict "50" file_ex = Some cfg /\ grid_supplied true cfg [("gridModel", VGrid)].
Proof.
  split; [|split; [|split]].
  - intros m Hm. cbn in Hm. destruct Hm as [<-|[<-|[<-|[]]]]; vm_compute; auto.
  - intros m Hm. cbn in Hm. destruct Hm as [<-|[<-|[]]]; vm_compute; auto.
  - vm_compute. reflexivity.
  - eexists. split; [reflexivity|]. left. exists (VBool true). split; [|split; [reflexivity|]].
    + exists (VBool true), [TBool]. split; [cbn; tauto|]. right; right. repeat split; discriminate.
    + exists VGrid, VNone, [TGrid]. split; [cbn; tauto|]. left. auto.
Qed.
