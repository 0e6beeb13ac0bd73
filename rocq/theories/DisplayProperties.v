(** Property C109: displayed parameters are the configured ones. *)
From Verif Require Import Base ConfigValues ConfigData ConfigModel ConfigSpec ConfigLemmas ConfigProofs ConfigProperties ConfigProperties2 DisplayModel.
Open Scope string_scope.

(** * Specification: what a user expects to be displayed for a DER whose
    configuration has value [c component parameter] *)
Definition constant_Vdc : list string := ["SolarPVDERSinglePhaseConstantVdc"; "SolarPVDERThreePhaseConstantVdc"].
Definition is_constant (model : string) : bool := existsb (String.eqb model) constant_Vdc.
Definition plain (label : string) (q : Q) : line := Value label (Shown q false).
Definition expected_modules (c : string -> string -> Q) : list line :=
  map (fun p => plain p (c "module_parameters" p)) ["Np"; "Ns"; "Vdcmpp0"; "Vdcmpp_min"; "Vdcmpp_max"].
Definition expected_ratings (c : string -> string -> Q) : list line :=
  [plain "Srated" (c "inverter_ratings" "Srated"); plain "Vdcrated" (c "inverter_ratings" "Vdcrated");
   plain "Vtrated (L-G peak)" (c "inverter_ratings" "Vdcrated" / 2 * c "basic_options" "m_steady_state");
   Value "Vrated (L-G peak)" (Shown (c "inverter_ratings" "Vrmsrated") true)].
Definition expected_circuit (c : string -> string -> Q) : list line :=
  [plain "Cdc" (c "circuit_parameters" "C_actual"); plain "Lf" (c "circuit_parameters" "Lf_actual"); plain "Rf" (c "circuit_parameters" "Rf_actual")].
Definition expected_gains (constVdc : bool) (c : string -> string -> Q) : list line :=
  let g k := plain k (c "controller_gains" k) in
  [Text "Current controller"; g "Kp_GCC"; g "Ki_GCC"; g "wp"] ++
  (if constVdc then [Text "Active power controller"; g "Kp_P"; g "Ki_P"] else [Text "DC link voltage controller"; g "Kp_DC"; g "Ki_DC"]) ++
  [Text "Reactive power controller"; g "Kp_Q"; g "Ki_Q"].
Definition expected (constVdc : bool) (c : string -> string -> Q) (ty : string) : list line :=
  Text "Parameters" ::
  (if String.eqb ty "module_parameters" then expected_modules c
   else if String.eqb ty "inverter_ratings" then expected_ratings c
   else if String.eqb ty "circuit_parameters" then expected_circuit c
   else if String.eqb ty "controller_gains" then expected_gains constVdc c
   else expected_modules c ++ expected_ratings c ++ expected_circuit c ++ expected_gains constVdc c).
Definition same_line (a b : line) : Prop :=
  match a, b with
  | Text x, Text y => x = y
  | Value l v, Value k w => l = k /\ s_root2 v = s_root2 w /\ s_val v == s_val w
  | _, _ => False
  end.
(** [c] gives the configured numbers of the DER [s] *)
Definition configured (model : string) (s : setup) (c : string -> string -> Q) : Prop :=
  forall t comp p v0, dget model DER_design_template = Some t -> entry t comp p v0 ->
    In comp ["module_parameters"; "inverter_ratings"; "circuit_parameters"; "controller_gains"] \/ (comp = "basic_options" /\ p = "m_steady_state") ->
    exists v, entry (s_design s) comp p v /\ num v = Ok (c comp p).

(** * Proofs *)
Definition numeric (v : pv) : bool := isinstance v [TInt; TFloat].
Definition shown_comp (comp p : string) : bool :=
  existsb (String.eqb comp) ["module_parameters"; "inverter_ratings"; "circuit_parameters"; "controller_gains"] ||
  (String.eqb comp "basic_options" && String.eqb p "m_steady_state").
Lemma numeric_num v : numeric v = true -> exists q, num v = Ok q.
Proof. unfold numeric, isinstance. destruct v; cbn; try discriminate; eexists; reflexivity. Qed.

(** all template values shown are numbers, and declared as numbers *)
Definition tmpl_numeric (t : dict) : bool :=
  forallb (fun kv => match snd kv with
    | VDict c => forallb (fun pw => negb (shown_comp (fst kv) (fst pw)) ||
        (numeric (snd pw) && match dget (fst pw) parameter_properties with
           | Some ts => forallb (fun x => match x with TInt | TFloat => true | _ => false end) ts | None => false end))%bool c
    | _ => true end) t.
Lemma templates_numeric model t : dget model DER_design_template = Some t -> tmpl_numeric t = true.
Proof.
  intros H. apply dget_In in H.
  assert (A : forallb (fun kv => tmpl_numeric (snd kv)) DER_design_template = true) by (vm_compute; reflexivity).
  rewrite forallb_forall in A. exact (A _ H).
Qed.
Lemma declared_numeric ts v : forallb (fun x => match x with TInt | TFloat => true | _ => false end) ts = true ->
  isinstance v ts = true -> numeric v = true.
Proof.
  intros A H. unfold isinstance in H. apply existsb_exists in H as (x & Hx & Hi). rewrite forallb_forall in A. specialize (A x Hx).
  unfold numeric, isinstance. cbn [existsb]. destruct x; try discriminate; rewrite Hi; [reflexivity|now rewrite orb_true_r].
Qed.
Lemma entry_numeric model t comp p v0 : dget model DER_design_template = Some t -> entry t comp p v0 -> shown_comp comp p = true ->
  numeric v0 = true /\ (forall v, has_declared_type p v -> numeric v = true).
Proof.
  intros Hm (c & Hc & Hp) Hs. pose proof (templates_numeric _ _ Hm) as A. unfold tmpl_numeric in A. rewrite forallb_forall in A.
  specialize (A _ (dget_In _ _ _ Hc)). cbn [fst snd] in A. rewrite forallb_forall in A. specialize (A _ (dget_In _ _ _ Hp)).
  cbn [fst snd] in A. rewrite Hs in A. cbn [negb orb] in A. apply andb_true_iff in A as [A B]. split; [exact A|].
  intros v (ts & Ht & Hi). rewrite Ht in B. eapply declared_numeric; eassumption.
Qed.

Definition value_of (d : dict) (comp p : string) : Q := match item d comp p with Ok v => s_val v | Raise _ => 0 end.
Lemma item_entry d comp p v q : entry d comp p v -> num v = Ok q -> item d comp p = Ok (Shown q false).
Proof. intros (c & Hc & Hp) Hn. unfold item, dsub. rewrite Hc. cbn [bindR pget]. rewrite Hp. cbn [bindR]. now rewrite Hn. Qed.

Lemma items_ok model file id kwargs s cfg t : setup_DER model file id kwargs = Ok s ->
  dget id file = Some cfg -> dget model DER_design_template = Some t -> components_are_objects t cfg ->
  forall comp p v0, entry t comp p v0 -> shown_comp comp p = true ->
  item (s_design s) comp p = Ok (Shown (value_of (s_design s) comp p) false) /\
  exists v, entry (s_design s) comp p v /\ num v = Ok (value_of (s_design s) comp p).
Proof.
  intros Hs Hc Hm Ho comp p v0 He Hsh.
  destruct (C38_created_der_partial _ _ _ _ _ _ _ Hs Hc Hm Ho) as (args & _ & A).
  destruct (A _ _ _ He) as (src & v & Sup & Hd & _ & Ht).
  destruct (entry_numeric _ _ _ _ _ Hm He Hsh) as [N1 N2].
  assert (N : numeric v = true).
  { destruct src; [apply N2, Ht; discriminate|apply N2, Ht; discriminate|apply N2, Ht; discriminate|].
    inversion Sup; subst. assert (v = v0) by (eapply entry_fun; eassumption). now subst. }
  destruct (numeric_num v N) as [q Hq]. pose proof (item_entry _ _ _ _ _ Hd Hq) as E.
  unfold value_of. rewrite E. cbn [s_val]. split; [reflexivity|]. exists v. split; assumption.
Qed.

Lemma setup_model model file id kwargs s : setup_DER model file id kwargs = Ok s -> exists t, dget model DER_design_template = Some t.
Proof. intros H. apply setup_inv in H as (t & _ & H & _). exists t. exact H. Qed.

(** the template of the model has this parameter, and it is one of those shown *)
Definition has (model x y : string) : bool :=
  match dget model DER_design_template with
  | Some t => match dget x t with Some (VDict c) => dmem y c && shown_comp x y | _ => false end
  | None => false
  end.
Lemma has_items model file id kwargs s cfg t : setup_DER model file id kwargs = Ok s ->
  dget id file = Some cfg -> dget model DER_design_template = Some t -> components_are_objects t cfg ->
  forall x y, has model x y = true -> item (s_design s) x y = Ok (Shown (value_of (s_design s) x y) false).
Proof.
  intros Hs Hc Hm Ho x y H. unfold has in H. rewrite Hm in H. destruct (dget x t) as [[]|] eqn:E; try discriminate.
  apply andb_true_iff in H as [H1 H2]. apply dmem_dget in H1 as [v0 H1].
  refine (proj1 (items_ok _ _ _ _ _ _ _ Hs Hc Hm Ho x y v0 _ H2)). exists d. auto.
Qed.
Ltac crunch F :=
  repeat first
    [ match goal with |- context [item ?d ?a ?b] => rewrite (F a b) by (vm_compute; reflexivity) end
    | progress cbv -[item value_of Qdiv Qmult] ].

Lemma attrs_const model d Zb Lb Cb : In model constant_Vdc ->
  (forall x y, has model x y = true -> item d x y = Ok (Shown (value_of d x y) false)) ->
  let c := value_of d in
  exists a, initialize_attrs model d Zb Lb Cb = Ok a /\
   (forall ty, In ty ["module_parameters"; "inverter_ratings"; "controller_gains"] ->
      show_PV_DER_parameters model a Zb Lb Cb ty = (expected true c ty, Ok tt)) /\
   show_PV_DER_parameters model a Zb Lb Cb "circuit_parameters" = ([Text "Parameters"], Raise AttributeError) /\
   show_PV_DER_parameters model a Zb Lb Cb "all" = (Text "Parameters" :: expected_modules c ++ expected_ratings c, Raise AttributeError)%list.
Proof.
  intros Hm F c. unfold c. clear c. destruct Hm as [<-|[<-|[]]].
  - eexists. split; [crunch F; reflexivity|].
    split; [intros ty [<-|[<-|[<-|[]]]]; cbv -[item value_of Qdiv Qmult]; reflexivity|]. split; cbv -[item value_of Qdiv Qmult]; reflexivity.
  - eexists. split; [crunch F; reflexivity|].
    split; [intros ty [<-|[<-|[<-|[]]]]; cbv -[item value_of Qdiv Qmult]; reflexivity|]. split; cbv -[item value_of Qdiv Qmult]; reflexivity.
Qed.

Lemma attrs_var model d Zb Lb Cb : ~ Zb == 0 -> ~ Lb == 0 -> ~ Cb == 0 -> In model (map fst DER_design_template) -> is_constant model = false ->
  (forall x y, has model x y = true -> item d x y = Ok (Shown (value_of d x y) false)) ->
  exists a, initialize_attrs model d Zb Lb Cb = Ok a /\
   (forall ty, In ty show_types ->
      exists ls, show_PV_DER_parameters model a Zb Lb Cb ty = (ls, Ok tt) /\ Forall2 same_line ls (expected false (value_of d) ty)).
Proof.
  intros HZ HL HC Hm Hk F.
  assert (Q1 : forall x b : Q, ~ b == 0 -> x / b * b == x) by (intros; field; assumption).
  destruct Hm as [<-|[<-|[<-|[<-|[<-|[<-|[<-|[]]]]]]]]; cbn [fst] in *; try (cbv in Hk; discriminate).
  all: eexists; split; [crunch F; reflexivity|];
    intros ty [<-|[<-|[<-|[<-|[<-|[]]]]]]; eexists; (split; [cbv -[item value_of Qdiv Qmult]; reflexivity|]);
    cbv -[item value_of Qdiv Qmult same_line]; repeat constructor; cbn [s_val]; try reflexivity; apply Q1; assumption.
Qed.

(** * C109 *)
(** Every DER whose settings were accepted: the numbers shown are the configured
    ones (which number wins when several sources give one is C38). *)
Theorem C109_displayed_parameters_partial :
  forall model file id kwargs s cfg t Zb Lb Cb,
  setup_DER model file id kwargs = Ok s -> dget id file = Some cfg ->
  dget model DER_design_template = Some t -> components_are_objects t cfg ->
  ~ Zb == 0 -> ~ Lb == 0 -> ~ Cb == 0 ->
  exists c a, configured model s c /\ initialize_attrs model (s_design s) Zb Lb Cb = Ok a /\
  forall ty, In ty show_types -> (In model constant_Vdc -> ty <> "circuit_parameters" /\ ty <> "all") ->
  exists ls, show_PV_DER_parameters model a Zb Lb Cb ty = (ls, Ok tt) /\
             Forall2 same_line ls (expected (is_constant model) c ty).
Proof.
  intros model file id kwargs s cfg t Zb Lb Cb Hs Hc Hm Ho HZ HL HC.
  pose proof (has_items _ _ _ _ _ _ _ Hs Hc Hm Ho) as F.
  assert (G : configured model s (value_of (s_design s))).
  { intros t' comp p v0 Hm' He Hin. assert (t' = t) by congruence. subst t'.
    refine (proj2 (items_ok _ _ _ _ _ _ _ Hs Hc Hm Ho comp p v0 He _)). unfold shown_comp.
    destruct Hin as [Hin|[-> ->]]; [|now rewrite !String.eqb_refl, orb_true_r].
    apply orb_true_iff. left. apply existsb_exists. exists comp. split; [exact Hin|apply String.eqb_refl]. }
  exists (value_of (s_design s)). destruct (is_constant model) eqn:K.
  - assert (Hin : In model constant_Vdc).
    { unfold is_constant in K. apply existsb_exists in K as (x & Hx & K). apply String.eqb_eq in K. now subst. }
    destruct (attrs_const model (s_design s) Zb Lb Cb Hin F) as (a & A & B & _). exists a. split; [exact G|]. split; [exact A|].
    intros ty Ht Hn. destruct (Hn Hin) as [N1 N2]. exists (expected true (value_of (s_design s)) ty). split.
    + apply B. destruct Ht as [<-|[<-|[<-|[<-|[<-|[]]]]]]; try tauto; cbn; tauto.
    + clear. generalize (expected true (value_of (s_design s)) ty). intros l. induction l as [|x l IH]; constructor; [|exact IH].
      destruct x; [reflexivity|]. repeat split; reflexivity.
  - destruct (attrs_var model (s_design s) Zb Lb Cb HZ HL HC) as (a & A & B); [|exact K|exact F|].
    { apply dget_In in Hm. apply in_map_iff. exists (model, t). auto. }
    exists a. split; [exact G|]. split; [exact A|]. intros ty Ht _. now apply B.
Qed.
Print Assumptions C109_displayed_parameters_partial.

(** A DER with constant DC voltage: its circuit parameters (and, with "all", its
    controller gains) cannot be displayed - AttributeError, for every accepted
    configuration. *)
Theorem C109_constant_Vdc_refuted :
  forall model file id kwargs s cfg t Zb Lb Cb, In model constant_Vdc ->
  setup_DER model file id kwargs = Ok s -> dget id file = Some cfg ->
  dget model DER_design_template = Some t -> components_are_objects t cfg ->
  exists a, initialize_attrs model (s_design s) Zb Lb Cb = Ok a /\
    show_PV_DER_parameters model a Zb Lb Cb "circuit_parameters" = ([Text "Parameters"], Raise AttributeError) /\
    exists ls, show_PV_DER_parameters model a Zb Lb Cb "all" = (ls, Raise AttributeError) /\
      forall g v, In (Value g v) ls -> ~ In g ["Kp_GCC"; "Ki_GCC"; "wp"; "Kp_P"; "Ki_P"; "Kp_Q"; "Ki_Q"].
Proof.
  intros model file id kwargs s cfg t Zb Lb Cb Hin Hs Hc Hm Ho.
  pose proof (has_items _ _ _ _ _ _ _ Hs Hc Hm Ho) as F.
  destruct (attrs_const model (s_design s) Zb Lb Cb Hin F) as (a & A & _ & B & C). exists a. split; [exact A|]. split; [exact B|].
  eexists. split; [exact C|]. intros g v H N.
  assert (D : forallb (fun x => match x with Value l _ => negb (existsb (String.eqb l) ["Kp_GCC"; "Ki_GCC"; "wp"; "Kp_P"; "Ki_P"; "Kp_Q"; "Ki_Q"]) | _ => true end)
     (Text "Parameters" :: expected_modules (value_of (s_design s)) ++ expected_ratings (value_of (s_design s))) = true) by reflexivity.
  rewrite forallb_forall in D. specialize (D _ H). cbn beta iota in D. apply negb_true_iff in D.
  assert (E : existsb (String.eqb g) ["Kp_GCC"; "Ki_GCC"; "wp"; "Kp_P"; "Ki_P"; "Kp_Q"; "Ki_Q"] = true).
  { apply existsb_exists. exists g. split; [exact N|apply String.eqb_refl]. }
  congruence.
Qed.
Print Assumptions C109_constant_Vdc_refuted.

(** The time constant of the voltage filter is configured with the controller
    gains and never displayed, whatever is asked for. *)
Theorem C109_Tfilter_never_shown_refuted :
  forall model a Zb Lb Cb ty v, ~ In (Value "Tfilter_Vrms" v) (fst (show_PV_DER_parameters model a Zb Lb Cb ty)).
Proof.
  intros model a Zb Lb Cb ty v. unfold show_PV_DER_parameters. destruct (negb _); [intros []|].
  cbv zeta.
  assert (P : forall l out, ~ In (Value "Tfilter_Vrms" v) out ->
     (forall x, In (Ok x) l -> ~ In (Value "Tfilter_Vrms" v) x) -> ~ In (Value "Tfilter_Vrms" v) (fst (prints out l))).
  { induction l as [|[x|e] l IH]; intros out H1 H2; cbn [prints]; [exact H1| |exact H1].
    apply IH; [|intros y Hy; apply H2; now right]. intros H. apply in_app_or in H as [H|H]; [tauto|]. exact (H2 x (or_introl eq_refl) H). }
  assert (R : forall vs x, print vs = Ok x -> (forall y, In y vs -> fst y <> "Tfilter_Vrms") -> ~ In (Value "Tfilter_Vrms" v) x).
  { intros vs. unfold print.
    assert (R0 : forall acc x, foldR (fun acc x => do v <- snd x; Ok (acc ++ [Value (fst x) v])%list) acc vs = Ok x ->
       ~ In (Value "Tfilter_Vrms" v) acc -> (forall y, In y vs -> fst y <> "Tfilter_Vrms") -> ~ In (Value "Tfilter_Vrms" v) x).
    { induction vs as [|[n w] vs IH]; intros acc x H HN HF; cbn [foldR] in H; [injection H as <-; exact HN|].
      cbn [fst snd] in H. destruct w as [w|e]; cbn [bindR] in H; [|discriminate].
      apply (IH _ _ H); [|intros y Hy; apply HF; now right]. intros K. apply in_app_or in K as [K|[K|[]]]; [tauto|].
      injection K as K _. exact (HF (n, Ok w) (or_introl eq_refl) K). }
    intros x H HF. apply (R0 [] x H); [intros []|exact HF]. }
  apply P; [intros [H|[]]; discriminate|].
  intros x Hx. apply in_app_or in Hx as [Hx|Hx]; [|apply in_app_or in Hx as [Hx|Hx]; [|apply in_app_or in Hx as [Hx|Hx]]].
  - destruct (_ || _)%bool in Hx; [|destruct Hx]. destruct Hx as [Hx|[Hx|[]]]; apply (R _ _ Hx); intros y Hy; cbn [In] in Hy; intuition (subst; discriminate).
  - destruct (_ || _)%bool in Hx; [|destruct Hx]. destruct Hx as [Hx|[Hx|[Hx|[]]]]; apply (R _ _ Hx); intros y Hy; cbn [In] in Hy; intuition (subst; discriminate).
  - destruct (_ || _)%bool in Hx; [|destruct Hx]. destruct Hx as [Hx|[]]; apply (R _ _ Hx); intros y Hy; cbn [In] in Hy; intuition (subst; discriminate).
  - destruct (_ || _)%bool in Hx; [|destruct Hx]. unfold show_gains in Hx. destruct (template_gains model) as [keys|]; [|destruct Hx as [Hx|[]]; discriminate].
    apply in_flat_map in Hx as ([n gs] & Hc & Hx). unfold show_controller in Hx. destruct (forallb _ _); [|destruct Hx].
    cbn [fst snd] in Hx. destruct Hx as [Hx|Hx]; [injection Hx as <-; intros [H|[]]; discriminate|].
    apply in_map_iff in Hx as (g & Hx & Hg). apply (R _ _ Hx). intros y [<-|[]]. cbn [fst].
    intros ->. cbn [controller_properties In] in Hc. unfold controller_properties in Hc. cbn [In] in Hc.
    intuition (match goal with K : (_, _) = (_, _) |- _ => injection K as <- <- end; cbn in Hg; intuition discriminate).
Qed.
Print Assumptions C109_Tfilter_never_shown_refuted.

(** Any other word is refused with nothing printed. *)
Theorem C109_unknown_type :
  forall model a Zb Lb Cb ty, ~ In ty show_types -> show_PV_DER_parameters model a Zb Lb Cb ty = ([], Raise ValueError).
Proof.
  intros model a Zb Lb Cb ty H. unfold show_PV_DER_parameters.
  destruct (existsb (String.eqb ty) show_types) eqn:E; [|reflexivity].
  apply existsb_exists in E as (x & Hx & E). apply String.eqb_eq in E. subst. tauto.
Qed.
Print Assumptions C109_unknown_type.

Example C109_hypotheses_met : exists s a,
  setup_DER "SolarPVDERThreePhase" file_ex "50" kw_ex = Ok s /\
  initialize_attrs "SolarPVDERThreePhase" (s_design s) 5 (1#75) (1#1885) = Ok a /\
  In (Value "Srated" (Shown 40000 false)) (fst (show_PV_DER_parameters "SolarPVDERThreePhase" a 5 (1#75) (1#1885) "all")) /\
  snd (show_PV_DER_parameters "SolarPVDERThreePhase" a 5 (1#75) (1#1885) "all") = Ok tt.
Proof. eexists. eexists. split; [vm_compute; reflexivity|]. split; [vm_compute; reflexivity|]. split; [vm_compute; tauto|vm_compute; reflexivity]. Qed.

(** the constant-voltage type gets through setup, too *)
Example C109_constant_hypotheses_met : exists s,
  setup_DER "SolarPVDERThreePhaseConstantVdc"
    [("7", [("basic_specs", VDict [("model_type", VStr "SolarPVDERThreePhaseConstantVdc")]);
            ("inverter_ratings", VDict [("Srated", VFloat 50000); ("Vrmsrated", VFloat 177)]);
            ("controller_gains", VDict [("Kp_P", VFloat 600)])])] "7" [("gridModel", VGrid); ("identifier", VStr "a")] = Ok s /\
  item (s_design s) "controller_gains" "Kp_P" = Ok (Shown 600 false).
Proof. eexists. split; vm_compute; reflexivity. Qed.
