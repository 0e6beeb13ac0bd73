(** Property C102: which exception a documented misuse of the API raises. *)
From Verif Require Import Base ConfigValues ConfigData ConfigModel ConfigSpec ConfigLemmas ConfigProofs ConfigProperties
  ConfigProperties2 ParamModel RTModel.
From Verif Require SimModel.
Open Scope string_scope.

Lemma dmem_iff {A} k (d : list (string * A)) : dmem k d = true <-> exists v, dget k d = Some v.
Proof. unfold dmem. destruct (dget k d); split; eauto; intros; try discriminate. destruct H; discriminate. Qed.

(** ** Missing grid model or grid measurements *)
(** A stand-alone DER without a grid model is refused with ValueError, and the
    grid model is never the reason for any other refusal. *)
Theorem C102_grid_model_required :
  forall sa args,
  (truthy sa = true -> dget "gridModel" args = None -> attach_grid_model sa args = Raise ValueError) /\
  (truthy sa = false \/ (exists g, dget "gridModel" args = Some g) -> attach_grid_model sa args = Ok tt).
Proof.
  intros sa args. unfold attach_grid_model, dmem. split.
  - intros -> ->. reflexivity.
  - intros [->|[g ->]]; auto. destruct (truthy sa); auto.
Qed.
Print Assumptions C102_grid_model_required.

(** The measurements a DER that is not stand-alone needs. *)
Definition needed (nphases : Z) (unbalanced : bool) (name : string) : Prop :=
  name = "gridFrequency" \/ name = "gridVoltagePhaseA" \/
  (unbalanced = true /\ (2 <= nphases)%Z /\ name = "gridVoltagePhaseB") \/
  (unbalanced = true /\ (3 <= nphases)%Z /\ name = "gridVoltagePhaseC").
Theorem C102_measurements_required :
  forall n u sa args,
  (truthy sa = false -> (exists name, needed n u name /\ dget name args = None) ->
   initialize_grid_measurements n u sa args = Raise ValueError) /\
  (truthy sa = true \/ (forall name, needed n u name -> exists v, dget name args = Some v) ->
   exists g, initialize_grid_measurements n u sa args = Ok g).
Proof.
  intros n u sa args. unfold initialize_grid_measurements, need, needed. split.
  - intros -> (name & Hn & Hm).
    destruct (dget "gridFrequency" args) eqn:F; cbn [bindR]; auto.
    destruct (dget "gridVoltagePhaseA" args) eqn:Fa; cbn [bindR]; auto.
    destruct Hn as [->|[->|[(-> & H & ->)|(-> & H & ->)]]]; try congruence.
    + destruct (2 <=? n)%Z eqn:E; [|apply Z.leb_gt in E; lia]. rewrite Hm. reflexivity.
    + assert ((2 <=? n)%Z = true) as -> by (apply Z.leb_le; lia). assert ((3 <=? n)%Z = true) as -> by (apply Z.leb_le; lia).
      destruct (dget "gridVoltagePhaseB" args); cbn [bindR]; auto. rewrite Hm. reflexivity.
  - intros [->|H]; eauto. destruct (truthy sa); eauto.
    destruct (H "gridFrequency") as [f ->]; auto. destruct (H "gridVoltagePhaseA") as [a ->]; auto. cbn [bindR].
    destruct (2 <=? n)%Z eqn:E2; destruct (3 <=? n)%Z eqn:E3; destruct u; cbn [bindR]; eauto;
    try apply Z.leb_le in E2; try apply Z.leb_le in E3;
    repeat match goal with |- context [dget "gridVoltagePhaseB" args] => destruct (H "gridVoltagePhaseB") as [? ->]; [auto 10|]; cbn [bindR]
           | |- context [dget "gridVoltagePhaseC" args] => destruct (H "gridVoltagePhaseC") as [? ->]; [auto 10|]; cbn [bindR] end; eauto.
Qed.
Print Assumptions C102_measurements_required.

(** ** The model type in the configuration is not one of the known ones *)
Theorem C102_model_type :
  forall file id kwargs cfg b mt,
  wrapper_get_config file id = Ok cfg -> dget "basic_specs" cfg = Some b -> pget "model_type" b = Ok mt ->
  (forall m, mt = VStr m -> ~ advertised m) ->
  DERModel_init file id kwargs = Raise ValueError.
Proof.
  intros file id kwargs cfg b mt H Hb Hm N. unfold DERModel_init, dsub. rewrite H. cbn [bindR]. rewrite Hb. cbn [bindR]. rewrite Hm. cbn [bindR].
  destruct mt; auto. apply C41_unknown_type_partial. auto.
Qed.
Print Assumptions C102_model_type.

(** ** A parameter no source supplies, or that does not exist *)
Definition lacks (p component : string) (d : dict) : Prop :=
  exists c, dget component d = Some (VDict c) /\ dget p c = None.
Theorem C102_parameter_missing :
  forall t cfg parent args component p,
  (dget p parameter_properties = None -> update_DER_parameter t cfg parent args component p = Raise AssertionError) /\
  (dget p parameter_properties <> None -> dget p args = None ->
   lacks p component cfg -> lacks p component parent -> lacks p component t ->
   update_DER_parameter t cfg parent args component p = Raise ValueError) /\
  (forall types v, dget p parameter_properties = Some types -> dget p args = Some v -> isinstance v types = false ->
   update_DER_parameter t cfg parent args component p = Raise ValueError).
Proof.
  intros t cfg parent args component p. unfold update_DER_parameter. split; [intros ->; auto|]. split.
  - intros N Ha (c & Hc & Hc') (d & Hd & Hd') (e & He & He'). destruct (dget p parameter_properties); [|congruence].
    rewrite Ha. unfold dsub. rewrite Hc, Hd, He. cbn [bindR pmem]. unfold dmem. rewrite Hc', Hd'. cbn [bindR pmem]. unfold dmem. rewrite He'. reflexivity.
  - intros types v -> -> Hv. unfold checked. rewrite Hv. reflexivity.
Qed.
Print Assumptions C102_parameter_missing.

(** ** Reading a parameter dictionary *)
Definition readable (ty : string) : Prop :=
  In ty ["module_parameters"; "inverter_ratings"; "controller_gains"; "circuit_parameters"; "all"].
Theorem C102_parameter_dictionary :
  forall s ty pid, ~ readable ty \/ dget pid (p_mod s) = None ->
  get_parameter_dictionary s ty pid = Raise ValueError.
Proof.
  intros s ty pid H. unfold get_parameter_dictionary.
  destruct (existsb (String.eqb ty) _) eqn:E; cbn [negb]; auto.
  destruct H as [H|H]; [|unfold dmem; rewrite H; auto].
  exfalso. apply H. apply existsb_exists in E as (x & Hx & Ex). apply String.eqb_eq in Ex. subst. exact Hx.
Qed.
Print Assumptions C102_parameter_dictionary.

(** ** Loading from a file that does not exist changes nothing *)
Theorem C102_missing_file :
  forall model s fs fname, dget fname fs = None ->
  load_parameter_dictionary model s fs fname = (s, Raise FileNotFoundError).
Proof. intros model s fs fname H. unfold load_parameter_dictionary. rewrite H. reflexivity. Qed.
Print Assumptions C102_missing_file.

(** ** An unknown voltage measurement type *)
Theorem C102_measurement_type :
  forall s m, (r_mtype s = MOtherType <-> get_Vrms_measured s m = Raise ValueError) /\
              (forall e, get_Vrms_measured s m = Raise e -> e = ValueError).
Proof.
  intros s m. unfold get_Vrms_measured. destruct (r_mtype s); split; try split; intros; try discriminate; congruence.
Qed.
Print Assumptions C102_measurement_type.

(** ** A ride-through table that is not a JSON object, or lacks a setting *)
Theorem C102_ride_through_table :
  forall rtc rt v, dget rt rtc = Some v -> (forall l, v <> VDict l) -> check_RT rtc rt = Raise AttributeError.
Proof.
  intros rtc rt v H N. unfold check_RT, dsub. rewrite H. cbn [bindR]. destruct v; auto. exfalso. eapply N; reflexivity.
Qed.
Print Assumptions C102_ride_through_table.

(** ** Loop-mode runs need a complex voltage, a list of states and a list of times *)
Theorem C102_loop_arguments :
  forall (V : Type) (o : SimModel.ops V) d g solver (va y0 t : SimModel.pyarg V) s,
  (forall v, va <> SimModel.PComplex v) \/ (forall l, y0 <> SimModel.PList l) \/ (forall l, t <> SimModel.PTimes l) ->
  SimModel.run_loop o d g solver va y0 t s = Raise ValueError.
Proof.
  intros V o d g solver va y0 t s H. unfold SimModel.run_loop.
  destruct va, y0, t; try reflexivity. exfalso. destruct H as [H|[H|H]]; eapply H; reflexivity.
Qed.
Print Assumptions C102_loop_arguments.

(** the premises are met: a three-phase DER with and without its measurements *)
Example C102_hypotheses_met :
  attach_grid_model (VBool true) [("gridModel", VGrid)] = Ok tt /\
  attach_grid_model (VBool true) [("Srated", VFloat 1)] = Raise ValueError /\
  needed 3 true "gridVoltagePhaseC" /\ ~ needed 1 false "gridVoltagePhaseB" /\
  initialize_grid_measurements 3 true (VBool false)
    [("gridFrequency", VFloat 377); ("gridVoltagePhaseA", VComplex 100 0); ("gridVoltagePhaseB", VComplex 100 0)] = Raise ValueError /\
  (exists g, initialize_grid_measurements 1 false (VBool false)
    [("gridFrequency", VFloat 377); ("gridVoltagePhaseA", VComplex 100 0)] = Ok g) /\
  DERModel_init [("a", [("parent_config", VStr ""); ("basic_specs", VDict [("model_type", VStr "Wind")])])] "a" [] = Raise ValueError /\
  DERModel_init [("a", [("parent_config", VStr ""); ("basic_specs", VDict [("model_type", VInt 3)])])] "a" [] = Raise ValueError /\
  update_DER_parameter [("module_parameters", VDict [("Np", VInt 11)])] [("module_parameters", VDict [])]
    [("module_parameters", VDict [])] [] "module_parameters" "Ns" = Raise ValueError /\
  update_DER_parameter [] [] [] [] "module_parameters" "colour" = Raise AssertionError /\
  lacks "Ns" "module_parameters" [("module_parameters", VDict [("Np", VInt 11)])] /\
  get_parameter_dictionary (Params [("50", [])] [] [] [] []) "all" "60" = Raise ValueError /\
  ~ readable "steadystate_values" /\
  check_RT [("LVRT", VFloat 1)] "LVRT" = Raise AttributeError.
Proof.
  split; [reflexivity|]. split; [reflexivity|].
  split; [right; right; right; repeat split; auto; lia|].
  split; [intros K; unfold needed in K; intuition (try discriminate; lia)|].
  split; [reflexivity|]. split; [eexists; reflexivity|].
  split; [vm_compute; reflexivity|]. split; [vm_compute; reflexivity|]. split; [vm_compute; reflexivity|].
  split; [vm_compute; reflexivity|]. split; [eexists; split; reflexivity|]. split; [vm_compute; reflexivity|].
  split; [intros K; cbn in K; intuition discriminate|reflexivity].
Qed.
