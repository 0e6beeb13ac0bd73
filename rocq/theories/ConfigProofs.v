(** Proofs about argument resolution and parameter precedence. *)
From Verif Require Import Base ConfigValues ConfigData ConfigModel ConfigSpec ConfigLemmas.
Open Scope string_scope.

(** ** Arguments *)
Definition contribution (cfg kwargs : dict) (key : string) (default : pv) (types : list ty) : option pv :=
  match dget key kwargs with
  | Some v => if isinstance v types then Some v else None
  | None =>
      match dget key cfg with
      | Some v => if isinstance v types then Some v else None
      | None => match default with VNone => None | v => Some v end
      end
  end.
Lemma resolve_contribution cfg kwargs acc key default types :
  resolve_argument cfg kwargs acc (key, (default, types)) =
  match contribution cfg kwargs key default types with Some v => dset key v acc | None => acc end.
Proof.
  unfold resolve_argument, contribution. destruct (dget key kwargs) as [v|].
  - destruct (isinstance v types); auto.
  - destruct (dget key cfg) as [v|]; [destruct (isinstance v types); auto|]. destruct default; auto.
Qed.
Lemma fold_arguments cfg kwargs l : NoDup (map fst l) -> forall acc n,
  dget n (fold_left (resolve_argument cfg kwargs) l acc) =
  match dget n l with
  | None => dget n acc
  | Some (default, types) => match contribution cfg kwargs n default types with
                             | Some v => Some v | None => dget n acc end
  end.
Proof.
  induction l as [|[k [df ts]] l IH]; intros N acc n; cbn [fold_left]; [reflexivity|].
  cbn in N. inversion N; subst. rewrite IH by auto. rewrite resolve_contribution. cbn [dget].
  destruct (String.eqb n k) eqn:E.
  - apply String.eqb_eq in E. subst. apply dget_nokey in H1. rewrite H1.
    destruct (contribution cfg kwargs k df ts); auto. apply dget_dset_same.
  - apply String.eqb_neq in E.
    destruct (contribution cfg kwargs k df ts); [rewrite (dget_dset_other n k) by auto|]; reflexivity.
Qed.
Lemma spec_nodup : NoDup (map fst DER_argument_spec).
Proof. apply nodupb_iff. vm_compute. reflexivity. Qed.
Lemma get_DER_arguments_spec cfg kwargs n :
  dget n (get_DER_arguments cfg kwargs) =
  match dget n DER_argument_spec with
  | None => None
  | Some (default, types) => contribution cfg kwargs n default types
  end.
Proof.
  unfold get_DER_arguments. rewrite fold_arguments by apply spec_nodup. cbn [dget].
  destruct (dget n DER_argument_spec) as [[df ts]|]; auto. destruct (contribution cfg kwargs n df ts); auto.
Qed.

(** ** Precedence *)
Lemma entry_fun d comp p v w : entry d comp p v -> entry d comp p w -> v = w.
Proof. intros (c & H1 & H2) (c' & H3 & H4). congruence. Qed.
Lemma supplied_fun args cfg parent t comp p s v s' v' :
  supplied_by args cfg parent t comp p s v -> supplied_by args cfg parent t comp p s' v' -> s = s' /\ v = v'.
Proof.
  intros H H'. inversion H; subst; inversion H'; subst; try congruence; split; auto; try congruence;
   try (exfalso; match goal with N : no_entry _ _ _, E : entry _ _ _ _ |- _ => exact (N _ E) end);
   try (eapply entry_fun; eassumption).
  all: exfalso;
    match goal with
    | N : no_entry ?c _ _, E : entry ?c _ _ _ |- _ => exact (N _ E)
    | N : no_entry _ _ _, E : entry _ _ _ _ |- _ => idtac end;
    repeat match goal with N : no_entry ?c ?x ?y, E : entry ?c ?x ?y ?v |- _ => exact (N _ E) end.
Qed.

Definition by_source (types : list ty) (s : source) (v : pv) : res pv :=
  match s with FromTemplate => Ok v | _ => checked types v end.

Lemma parameter_cases t cfg parent args comp p c pc tc types v0 :
  dget comp cfg = Some (VDict c) -> dget comp parent = Some (VDict pc) -> dget comp t = Some (VDict tc) ->
  dget p tc = Some v0 -> dget p parameter_properties = Some types ->
  exists s v, supplied_by args cfg parent t comp p s v /\
    update_DER_parameter t cfg parent args comp p = by_source types s v.
Proof.
  intros Hc Hp Ht Hv Hty. unfold update_DER_parameter. rewrite Hty.
  destruct (dget p args) as [v|] eqn:Ea.
  { exists FromArgument, v. split; [now constructor|reflexivity]. }
  unfold dsub. rewrite Hc, Hp, Ht. cbn [bindR pmem pget]. unfold dmem.
  destruct (dget p c) as [v|] eqn:Ec.
  { exists FromConfig, v. split; [constructor; auto; exists c; auto|reflexivity]. }
  assert (Nc : no_entry cfg comp p) by (intros v (c' & H1 & H2); congruence).
  destruct (dget p pc) as [v|] eqn:Ep.
  { exists FromParent, v. split; [constructor; auto; exists pc; auto|reflexivity]. }
  assert (Np : no_entry parent comp p) by (intros v (c' & H1 & H2); congruence).
  rewrite Hv. exists FromTemplate, v0. split; [constructor; auto; exists tc; auto|reflexivity].
Qed.

(** Side conditions on a template, decided by computation. *)
Definition known_param (p : string) : bool := dmem p parameter_properties && negb (String.eqb p "Z1_actual").
Definition tmpl_ok (t : dict) : bool :=
  nodupb (map fst t) &&
  forallb (fun kv => nodupb (params_of (snd kv)) && forallb known_param (params_of (snd kv))
                     && negb (instr (fst kv) (map fst RT_components))) t &&
  forallb (fun n => match dget n t with Some (VDict _) => true | _ => false end)
    ["basic_specs"; "module_parameters"; "inverter_ratings"; "circuit_parameters"; "controller_gains";
     "steadystate_values"; "basic_options"; "initial_states"] &&
  forallb (fun cp => match dget (fst cp) t with
                     | Some (VDict c) => match dget (snd cp) c with
                        | Some v => isinstance v [TInt; TFloat] | None => false end
                     | _ => false end)
    [("circuit_parameters", "R1_actual"); ("circuit_parameters", "X1_actual")] &&
  forallb (fun cp => match dget (fst cp) t with
                     | Some (VDict c) => dmem (snd cp) c
                     | _ => false end)
    [("basic_specs", "n_phases"); ("basic_specs", "n_ODE"); ("basic_specs", "model_type");
     ("inverter_ratings", "Srated"); ("inverter_ratings", "Vrmsrated"); ("basic_options", "Sinsol");
     ("basic_options", "t_stable"); ("basic_options", "m_steady_state");
     ("basic_options", "current_gradient_limiter"); ("basic_options", "Vrms_measurement_type")].
Lemma templates_ok model t : dget model DER_design_template = Some t -> tmpl_ok t = true.
Proof.
  intros H. apply dget_In in H.
  assert (A : forallb (fun kv => tmpl_ok (snd kv)) DER_design_template = true) by (vm_compute; reflexivity).
  rewrite forallb_forall in A. exact (A _ H).
Qed.
Lemma RT_nodup : NoDup (map fst RT_components).
Proof. apply nodupb_iff. vm_compute. reflexivity. Qed.

Section Design.
  Variables t cfg parent args : dict.
  Hypothesis OK : tmpl_ok t = true.
  Hypothesis Hcfg : components_present t cfg.
  Hypothesis Hcfo : components_are_objects t cfg.
  Hypothesis Hpar : components_present t parent.
  Hypothesis Hpao : components_are_objects t parent.
  Hypothesis Hargs : forall comp, In comp (map fst t) -> dget comp args = None.

  Local Lemma t_nodup : NoDup (map fst t).
  Proof. unfold tmpl_ok in OK. rewrite !andb_true_iff in OK. apply nodupb_iff. tauto. Qed.
  Local Lemma t_comp name c : In (name, c) t ->
    NoDup (params_of c) /\ (forall p, In p (params_of c) -> known_param p = true) /\
    ~ In name (map fst RT_components).
  Proof.
    intros H. unfold tmpl_ok in OK. rewrite !andb_true_iff in OK. destruct OK as [[[[_ A] _] _] _].
    rewrite forallb_forall in A. apply A in H. cbn [fst snd] in H.
    rewrite !andb_true_iff, negb_true_iff in H. destruct H as [[H1 H2] H3].
    split; [now apply nodupb_iff|]. split; [now apply forallb_forall|].
    rewrite <- instr_iff. congruence.
  Qed.
  Local Lemma t_in comp c : dget comp t = Some c <-> In (comp, c) t.
  Proof. split; [apply dget_In | apply dget_In_nodup, t_nodup]. Qed.

  Local Lemma param_result comp p v0 : entry t comp p v0 ->
    exists types s v, dget p parameter_properties = Some types /\
      supplied_by args cfg parent t comp p s v /\
      update_DER_parameter t cfg parent args comp p = by_source types s v.
  Proof.
    intros (tc & Ht & Hv).
    assert (Hin : In comp (map fst t)) by (apply dget_key; eauto).
    destruct (Hcfg _ Hin) as [c Hc]. destruct (Hcfo _ _ _ Ht Hc) as [c' ->].
    destruct (Hpar _ Hin) as [pc Hp]. destruct (Hpao _ _ _ Ht Hp) as [pc' ->].
    assert (K : known_param p = true).
    { apply t_in in Ht. apply t_comp in Ht as (_ & K & _). apply K. cbn. apply dget_key. eauto. }
    unfold known_param in K. apply andb_true_iff in K as [K _]. apply dmem_dget in K as [types K].
    destruct (parameter_cases t cfg parent args comp p c' pc' tc types v0 Hc Hp Ht Hv K) as (s & v & ? & ?).
    exists types, s, v. auto.
  Qed.

  Definition comp_value (kv : string * pv) : res pv :=
    do d <- set_all (fun p => p) (update_DER_parameter t cfg parent args (fst kv)) (params_of (snd kv)) [];
    Ok (VDict d).
  Local Lemma comps_eq : forall l acc, (forall kv, In kv l -> In (fst kv) (map fst t)) ->
    foldR (update_component t cfg parent args) acc l = set_all fst comp_value l acc.
  Proof.
    induction l as [|[n c] l IH]; intros acc H; [reflexivity|]. unfold set_all in *. cbn [foldR].
    unfold update_component at 1. rewrite Hargs by (apply (H (n, c)); now left).
    unfold comp_value at 1. cbn [fst snd]. unfold set_all.
    destruct (foldR _ [] (params_of c)); cbn [bindR]; [|reflexivity].
    apply IH. intros; apply H; now right.
  Qed.

  Local Lemma RT_fold : forall l acc n, NoDup (map fst l) ->
    dget n (fold_left (update_RT_component cfg parent args) l acc) =
    match dget n l with
    | None => dget n acc
    | Some dflt => Some (match dget n args with Some v => v | None =>
                         match dget n cfg with Some v => v | None =>
                         match dget n parent with Some v => v | None => dflt end end end)
    end.
  Proof.
    induction l as [|[k df] l IH]; intros acc n N; cbn [fold_left]; [reflexivity|].
    cbn in N. inversion N; subst. rewrite IH by auto. cbn [dget].
    destruct (String.eqb n k) eqn:E.
    - apply String.eqb_eq in E. subst. apply dget_nokey in H1. rewrite H1. unfold update_RT_component.
      destruct (dget k args); [apply dget_dset_same|].
      destruct (dget k cfg); [apply dget_dset_same|].
      destruct (dget k parent); apply dget_dset_same.
    - apply String.eqb_neq in E. destruct (dget n l); auto. unfold update_RT_component.
      destruct (dget k args); [now apply dget_dset_other|].
      destruct (dget k cfg); [now apply dget_dset_other|].
      destruct (dget k parent); now apply dget_dset_other.
  Qed.

  Local Lemma check_ok : check_DER_config t cfg = Ok tt.
  Proof.
    unfold check_DER_config.
    assert (H : forallb (fun kv => dmem (fst kv) cfg) t = true).
    { apply forallb_forall. intros kv Hk. apply dmem_dget. apply Hcfg. now apply in_map. }
    now rewrite H.
  Qed.

  Local Lemma required n : In n ["basic_specs"; "module_parameters"; "inverter_ratings"; "circuit_parameters";
      "controller_gains"; "steadystate_values"; "basic_options"; "initial_states"] -> exists d, dget n t = Some (VDict d).
  Proof.
    intros H. unfold tmpl_ok in OK. rewrite !andb_true_iff in OK. destruct OK as [[[_ A] _] _].
    rewrite forallb_forall in A. apply A in H. destruct (dget n t) as [[]|]; try discriminate. eauto.
  Qed.
  Local Lemma required_R p : In p ["R1_actual"; "X1_actual"] ->
    exists v, entry t "circuit_parameters" p v /\ isinstance v [TInt; TFloat] = true.
  Proof.
    intros H. unfold tmpl_ok in OK. rewrite !andb_true_iff in OK. destruct OK as [[_ A] _].
    rewrite forallb_forall in A. specialize (A ("circuit_parameters", p)). cbn [fst snd] in A.
    assert (M : In ("circuit_parameters", p) [("circuit_parameters", "R1_actual"); ("circuit_parameters", "X1_actual")])
      by (cbn in *; intuition congruence).
    apply A in M. destruct (dget "circuit_parameters" t) as [[]|] eqn:E; try discriminate.
    destruct (dget p d) as [v|] eqn:Ev; [|discriminate]. exists v. split; auto. exists d. auto.
  Qed.
  Lemma required_P c p : In (c, p) [("basic_specs", "n_phases"); ("basic_specs", "n_ODE"); ("basic_specs", "model_type");
     ("inverter_ratings", "Srated"); ("inverter_ratings", "Vrmsrated"); ("basic_options", "Sinsol");
     ("basic_options", "t_stable"); ("basic_options", "m_steady_state");
     ("basic_options", "current_gradient_limiter"); ("basic_options", "Vrms_measurement_type")] ->
    exists v, entry t c p v.
  Proof.
    intros M. unfold tmpl_ok in OK. rewrite !andb_true_iff in OK. destruct OK as [_ A].
    rewrite forallb_forall in A. apply A in M. cbn [fst snd] in M.
    destruct (dget c t) as [[]|] eqn:E; try discriminate. apply dmem_dget in M as [v M]. exists v, d. auto.
  Qed.

  (** the result of the component loop *)
  Local Lemma comps_ok d : foldR (update_component t cfg parent args) (map (fun kv => (fst kv, VDict [])) t) t = Ok d ->
    forall comp tc, dget comp t = Some (VDict tc) ->
      exists dc, dget comp d = Some (VDict dc) /\
        (forall p, ~ In p (map fst tc) -> dget p dc = None) /\
        forall p v0, dget p tc = Some v0 -> exists v, dget p dc = Some v /\
           update_DER_parameter t cfg parent args comp p = Ok v.
  Proof.
    intros H comp tc Ht. rewrite comps_eq in H by (intros; now apply in_map).
    apply (set_all_ok _ _ _ t_nodup) in H as [H _].
    pose proof Ht as Hin. apply t_in in Hin. destruct (H _ Hin) as (v & Hv & Hd). cbn [fst snd] in *.
    unfold comp_value in Hv. cbn [fst snd params_of] in Hv.
    destruct (set_all _ _ _ []) as [dc|] eqn:E; cbn in Hv; [|discriminate]. injection Hv as <-.
    exists dc. split; auto. destruct (t_comp _ _ Hin) as (N & _ & _). cbn [params_of] in N.
    apply (set_all_ok (fun p => p)) in E; [|now rewrite map_id]. destruct E as [E1 E2]. rewrite map_id in E2.
    split; [intros p Hp; rewrite E2 by auto; reflexivity|].
    intros p v0 Hp. assert (Ip : In p (map fst tc)) by (apply dget_key; eauto).
    destruct (E1 _ Ip) as (v & ? & ?). eauto.
  Qed.
  Local Lemma comps_raise e : foldR (update_component t cfg parent args) (map (fun kv => (fst kv, VDict [])) t) t = Raise e ->
    exists comp p v0, entry t comp p v0 /\ update_DER_parameter t cfg parent args comp p = Raise e.
  Proof.
    intros H. rewrite comps_eq in H by (intros; now apply in_map).
    apply set_all_raise in H as ([comp c] & Hin & H). unfold comp_value in H. cbn [fst snd] in H.
    destruct (set_all _ _ _ []) as [dc|e'] eqn:E; cbn in H; [discriminate|]. injection H as ->.
    apply set_all_raise in E as (p & Hp & E). destruct c; cbn in Hp; try contradiction.
    apply dget_key in Hp as [v0 Hp]. exists comp, p, v0. split; auto. exists d. split; auto. now apply t_in.
  Qed.

  (** typed R1/X1 give a complex impedance *)
  Local Lemma num_typed v : isinstance v [TInt; TFloat] = true -> exists q, num v = Ok q.
  Proof. destruct v; cbn; intros; try discriminate; eauto. Qed.

  Theorem design_ok d : update_DER_config t cfg parent args = Ok d ->
    (forall comp p v0, entry t comp p v0 ->
      exists s v, supplied_by args cfg parent t comp p s v /\ entry d comp p v /\
                  (s <> FromTemplate -> has_declared_type p v)) /\
    (forall n dflt, dget n RT_components = Some dflt ->
      dget n d = Some (match dget n args with Some v => v | None =>
                         match dget n cfg with Some v => v | None =>
                         match dget n parent with Some v => v | None => dflt end end end)) /\
    (exists r x r' x', entry d "circuit_parameters" "R1_actual" r /\ entry d "circuit_parameters" "X1_actual" x /\
       num r = Ok r' /\ num x = Ok x' /\ entry d "circuit_parameters" "Z1_actual" (VComplex r' x')).
  Proof.
    intros H. unfold update_DER_config in H. rewrite check_ok in H. cbn [bindR] in H.
    destruct (foldR (update_component t cfg parent args) _ t) as [d0|] eqn:E0; cbn [bindR] in H; [|discriminate].
    set (d1 := fold_left (update_RT_component cfg parent args) RT_components d0) in H.
    pose proof (comps_ok _ E0) as C.
    assert (Hcomp : forall comp c, In (comp, c) t -> dget comp d1 = dget comp d0).
    { intros comp c Hin. unfold d1. rewrite RT_fold by apply RT_nodup.
      destruct (t_comp _ _ Hin) as (_ & _ & N). apply dget_nokey in N. now rewrite N. }
    destruct (required "circuit_parameters" ltac:(cbn; tauto)) as [tcp Hcp].
    destruct (C _ _ Hcp) as (dc & Hdc & _ & Hpc).
    destruct (required_R "R1_actual" ltac:(cbn; tauto)) as (r0 & (tr & Htr & Hr0) & _).
    destruct (required_R "X1_actual" ltac:(cbn; tauto)) as (x0 & (tx & Htx & Hx0) & _).
    assert (tr = tcp) by congruence. assert (tx = tcp) by congruence. subst tr tx.
    destruct (Hpc _ _ Hr0) as (r & Hr & _). destruct (Hpc _ _ Hx0) as (x & Hx & _).
    assert (Hd1 : dget "circuit_parameters" d1 = Some (VDict dc)) by (rewrite (Hcomp _ (VDict tcp)); auto; now apply t_in).
    unfold dsub in H. rewrite Hd1 in H.
    destruct (dget "basic_specs" d1) as [w0|]; cbn [bindR] in H; [|discriminate].
    destruct (dget "module_parameters" d1) as [w1|]; cbn [bindR] in H; [|discriminate].
    destruct (dget "inverter_ratings" d1) as [w2|]; cbn [bindR] in H; [|discriminate].
    cbn [pget] in H. rewrite Hr, Hx in H. cbn [bindR] in H.
    unfold complex_of in H. destruct (num r) as [r'|] eqn:Er; cbn [bindR] in H; [|discriminate].
    destruct (num x) as [x'|] eqn:Ex; cbn [bindR] in H; [|discriminate].
    destruct (dget "controller_gains" d1) as [w3|]; cbn [bindR] in H; [|discriminate].
    destruct (dget "steadystate_values" d1) as [w4|]; cbn [bindR] in H; [|discriminate].
    injection H as <-.
    assert (Hent : forall comp p v, p <> "Z1_actual" -> entry d1 comp p v ->
      entry (dset "circuit_parameters" (VDict (dset "Z1_actual" (VComplex r' x') dc)) d1) comp p v).
    { intros comp p v Np (c & H1 & H2). destruct (string_dec comp "circuit_parameters") as [->|N].
      - assert (c = dc) by congruence. subst c.
        exists (dset "Z1_actual" (VComplex r' x') dc). rewrite dget_dset_same. split; auto.
        now rewrite dget_dset_other.
      - exists c. now rewrite dget_dset_other. }
    split; [|split].
    - intros comp p v0 (tc & Ht & Hv0). pose proof Ht as Hin. apply t_in in Hin.
      destruct (C _ _ Ht) as (dc' & Hdc' & _ & Hp'). destruct (Hp' _ _ Hv0) as (v & Hv & Hup).
      destruct (param_result comp p v0) as (types & s & v' & Hty & Hs & Hu); [exists tc; auto|].
      rewrite Hu in Hup. exists s, v'.
      assert (v' = v /\ (s <> FromTemplate -> isinstance v types = true)) as [-> Htyp].
      { unfold by_source, checked in Hup. destruct s; try (destruct (isinstance v' types) eqn:Ei; [|discriminate]);
          injection Hup as ->; split; auto; congruence. }
      split; [auto|]. split; [|intros N; exists types; auto].
      apply Hent.
      + destruct (t_comp _ _ Hin) as (_ & K & _). specialize (K p). cbn [params_of] in K.
        intros ->. unfold known_param in K. rewrite String.eqb_refl, andb_false_r in K.
        discriminate K. apply dget_key. eauto.
      + exists dc'. rewrite (Hcomp _ (VDict tc)); auto.
    - intros n dflt Hn. rewrite dget_dset_other.
      + unfold d1. rewrite RT_fold by apply RT_nodup. now rewrite Hn.
      + intros ->. apply t_in in Hcp. destruct (t_comp _ _ Hcp) as (_ & _ & N). apply N, dget_key. eauto.
    - exists r, x, r', x'. split; [|split; [|split; [auto|split; [auto|]]]].
      + apply Hent; [discriminate|]. exists dc; auto.
      + apply Hent; [discriminate|]. exists dc; auto.
      + exists (dset "Z1_actual" (VComplex r' x') dc). now rewrite !dget_dset_same.
  Qed.

  Theorem design_raise e : update_DER_config t cfg parent args = Raise e ->
    e = ValueError /\ exists comp p v0 s v, entry t comp p v0 /\ supplied_by args cfg parent t comp p s v /\
      s <> FromTemplate /\ ~ has_declared_type p v.
  Proof.
    intros H. unfold update_DER_config in H. rewrite check_ok in H. cbn [bindR] in H.
    destruct (foldR (update_component t cfg parent args) _ t) as [d0|e0] eqn:E0; cbn [bindR] in H.
    - exfalso. set (d1 := fold_left (update_RT_component cfg parent args) RT_components d0) in H.
      pose proof (comps_ok _ E0) as C.
      assert (Hcomp : forall comp c, In (comp, c) t -> dget comp d1 = dget comp d0).
      { intros comp c Hin. unfold d1. rewrite RT_fold by apply RT_nodup.
        destruct (t_comp _ _ Hin) as (_ & _ & N). apply dget_nokey in N. now rewrite N. }
      assert (G : forall n, In n ["basic_specs"; "module_parameters"; "inverter_ratings"; "circuit_parameters";
        "controller_gains"; "steadystate_values"; "basic_options"; "initial_states"] ->
        exists tc dc, dget n t = Some (VDict tc) /\ dget n d1 = Some (VDict dc) /\
          forall p v0, dget p tc = Some v0 -> exists v, dget p dc = Some v /\
            update_DER_parameter t cfg parent args n p = Ok v).
      { intros n Hn. destruct (required n Hn) as [tc Ht]. destruct (C _ _ Ht) as (dc & Hdc & _ & Hp).
        exists tc, dc. split; auto. split; auto. rewrite (Hcomp _ (VDict tc)); auto. now apply t_in. }
      destruct (G "basic_specs" ltac:(cbn; tauto)) as (ta1 & da1 & _ & G1 & _).
      destruct (G "module_parameters" ltac:(cbn; tauto)) as (ta2 & da2 & _ & G2 & _).
      destruct (G "inverter_ratings" ltac:(cbn; tauto)) as (ta3 & da3 & _ & G3 & _).
      destruct (G "controller_gains" ltac:(cbn; tauto)) as (ta4 & da4 & _ & G4 & _).
      destruct (G "steadystate_values" ltac:(cbn; tauto)) as (ta5 & da5 & _ & G5 & _).
      destruct (G "circuit_parameters" ltac:(cbn; tauto)) as (tcp & dc & Hcp & G6 & Hpc).
      assert (Hnum : forall p, In p ["R1_actual"; "X1_actual"] -> exists v q, dget p dc = Some v /\ num v = Ok q).
      { intros p Hp. destruct (required_R p Hp) as (v0 & Hent & Hty0).
        assert (Hpp : dget p parameter_properties = Some [TInt; TFloat])
          by (cbn in Hp; destruct Hp as [<-|[<-|[]]]; vm_compute; reflexivity).
        destruct Hent as (tc' & Htc' & Hv0). assert (tc' = tcp) by congruence. subst tc'.
        destruct (Hpc _ _ Hv0) as (v & Hv & Hu).
        destruct (param_result "circuit_parameters" p v0) as (types & s & v' & Hty & Hs & Hu'); [exists tcp; auto|].
        assert (types = [TInt; TFloat]) by congruence. subst types. rewrite Hu' in Hu.
        assert (Hi : isinstance v [TInt; TFloat] = true).
        { unfold by_source, checked in Hu. inversion Hs; subst;
            try (destruct (isinstance v' [TInt; TFloat]) eqn:Ei; [|discriminate]; injection Hu as ->; auto).
          injection Hu as ->. destruct H3 as (tc' & ? & ?). congruence. }
        destruct (num_typed _ Hi) as [q Hq]. eauto. }
      destruct (Hnum "R1_actual" ltac:(cbn; tauto)) as (r & r' & Hr & Er).
      destruct (Hnum "X1_actual" ltac:(cbn; tauto)) as (x & x' & Hx & Ex).
      unfold dsub in H. rewrite G1, G2, G3, G4, G5, G6 in H. cbn [bindR pget] in H.
      rewrite Hr, Hx in H. cbn [bindR] in H. unfold complex_of in H. rewrite Er, Ex in H. cbn [bindR] in H.
      discriminate.
    - injection H as ->. apply comps_raise in E0 as (comp & p & v0 & Hent & Hu).
      destruct (param_result comp p v0 Hent) as (types & s & v & Hty & Hs & Hu').
      rewrite Hu' in Hu. unfold by_source, checked in Hu.
      destruct s; try discriminate; (destruct (isinstance v types) eqn:Ei; [discriminate|]); injection Hu as <-;
       (split; [reflexivity|]); exists comp, p, v0; eexists; exists v; (split; [exact Hent|]);
       (split; [exact Hs|]); (split; [discriminate|]); intros (ts & H1 & H2); congruence.
  Qed.
End Design.
