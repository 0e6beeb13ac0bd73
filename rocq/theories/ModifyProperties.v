(** Property C108: switching a DER to another parameter dictionary. *)
From Coq Require Import String.
From Verif Require Import Base ModifyModel.
Open Scope string_scope.

(** The classes of DER objects: those a model type names, and the wrapper. *)
Definition der_classes : list string :=
  ["SolarPVDERSinglePhase"; "SolarPVDERSinglePhaseConstantVdc"; "SolarPVDERThreePhase"; "SolarPVDERThreePhaseBalanced";
   "SolarPVDERThreePhaseConstantVdc"; "SolarPVDERThreePhaseNoVrmsFilter"; "SolarPVDERThreePhaseNumba"].

(** modify_DER_parameters, the documented last step of the parameter-update
    example, exists on every DER and raises AttributeError for every DER and
    parameter ID, leaving the DER on its old parameters - whatever the statements
    after the failing call do. *)
Theorem C108_switch_refuted :
  forall D (set_id : D -> string -> D) rest d pid n, In n der_classes ->
  defined_for n "modify_DER_parameters" = true /\
  modify_DER_parameters n set_id rest d pid = (d, Raise AttributeError).
Proof.
  intros D set_id rest d pid n H.
  assert (A : forallb (fun n => defined_for n "modify_DER_parameters" && negb (defined_for n "get_DER_id"))%bool der_classes = true)
    by (vm_compute; reflexivity).
  rewrite forallb_forall in A. specialize (A n H). apply andb_true_iff in A as [A B]. split; [exact A|].
  unfold modify_DER_parameters. now rewrite B.
Qed.
Print Assumptions C108_switch_refuted.
(** On the wrapper object itself the call fails too, after replacing its
    parameter_ID. *)
Theorem C108_wrapper_refuted :
  forall D (set_id : D -> string -> D) rest d pid,
  modify_DER_parameters "DERModel" set_id rest d pid = (set_id d pid, Raise AttributeError).
Proof.
  intros. assert (A : (defined_for "DERModel" "get_DER_id" && negb (defined_for "DERModel" "initialize_module_parameters"))%bool = true) by (vm_compute; reflexivity).
  apply andb_true_iff in A as [A B]. unfold modify_DER_parameters. now rewrite A, B.
Qed.
Print Assumptions C108_wrapper_refuted.

(** the lookup is not vacuous: every other method the call needs is there *)
Example C108_lookup_works :
  forallb (fun n => defined_for n "initialize_module_parameters" && defined_for n "initialize_DER_model" &&
                    defined_for n "initialize_states" && defined_for n "initialize_derived_quantities")%bool der_classes = true /\
  defined_for "DERModel" "get_DER_id" = true.
Proof. split; vm_compute; reflexivity. Qed.
