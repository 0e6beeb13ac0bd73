(** Specification vocabulary for the configuration properties.  It only uses
    dictionaries, [isinstance] and the data tables, not the model's functions. *)
From Verif Require Import Base ConfigValues ConfigData.
Open Scope string_scope.

(** Configuration entry: parameter [p] of component [comp] has value [v]. *)
Definition entry (cfg : dict) (comp p : string) (v : pv) : Prop :=
  exists c, dget comp cfg = Some (VDict c) /\ dget p c = Some v.
Definition no_entry (cfg : dict) (comp p : string) : Prop := forall v, ~ entry cfg comp p v.

(** The declared type of a parameter (properties.py). *)
Definition has_declared_type (p : string) (v : pv) : Prop :=
  exists types, dget p parameter_properties = Some types /\ isinstance v types = true.

Inductive source := FromArgument | FromConfig | FromParent | FromTemplate.

(** Which source supplies parameter [p] of component [comp]: the arguments, else
    the DER's own entry, else the parent's entry, else the template. *)
Inductive supplied_by (args cfg parent tmpl : dict) (comp p : string) : source -> pv -> Prop :=
| by_argument v : dget p args = Some v ->
    supplied_by args cfg parent tmpl comp p FromArgument v
| by_config v : dget p args = None -> entry cfg comp p v ->
    supplied_by args cfg parent tmpl comp p FromConfig v
| by_parent v : dget p args = None -> no_entry cfg comp p -> entry parent comp p v ->
    supplied_by args cfg parent tmpl comp p FromParent v
| by_template v : dget p args = None -> no_entry cfg comp p -> no_entry parent comp p ->
    entry tmpl comp p v -> supplied_by args cfg parent tmpl comp p FromTemplate v.

(** Every component of the template that the configuration mentions is an object. *)
Definition components_are_objects (tmpl cfg : dict) : Prop :=
  forall comp v c, dget comp tmpl = Some (VDict v) -> dget comp cfg = Some c -> exists d, c = VDict d.
(** ... and every one of them is mentioned. *)
Definition components_present (tmpl cfg : dict) : Prop :=
  forall comp, In comp (map fst tmpl) -> exists c, dget comp cfg = Some c.

(** C39 as intended: the argument named [n] resolves to the keyword argument if
    that has a declared type, otherwise to the (well-typed) configuration value,
    otherwise to the default if there is one. *)
Definition well_typed_at (n : string) (types : list ty) (d : dict) (v : pv) : Prop :=
  dget n d = Some v /\ isinstance v types = true.
Definition argument_intended (cfg kwargs : dict) (n : string) (v : pv) : Prop :=
  exists default types, In (n, (default, types)) DER_argument_spec /\
    (well_typed_at n types kwargs v \/
     ((forall w, ~ well_typed_at n types kwargs w) /\ well_typed_at n types cfg v) \/
     ((forall w, ~ well_typed_at n types kwargs w) /\ (forall w, ~ well_typed_at n types cfg w) /\
      v = default /\ default <> VNone)).

(** C40: the value of a specification in a configuration with a parent. *)
Definition inherited (cfg parent : dict) (comp p : string) (v : pv) : Prop :=
  entry cfg comp p v \/ (no_entry cfg comp p /\ entry parent comp p v).
