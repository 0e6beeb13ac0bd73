(** Property C43: the parameter dictionaries of a DER. *)
From Coq Require Import Ascii.
From Verif Require Import Base ConfigValues ConfigData ConfigLemmas ParamModel ParamLemmas.
Open Scope string_scope.

(** The value of parameter [k] of type [p] under ID [pid]. *)
Definition param (s : params) (p : ptype) (pid k : string) : option pv :=
  match dget pid (pfield p s) with Some d => dget k d | None => None end.
(** [pid] names a parameter dictionary of type [p]. *)
Definition has_ID (s : params) (p : ptype) (pid : string) : Prop := In pid (map fst (pfield p s)).
(** Python dictionaries have no repeated keys. *)
Definition distinct (d : dict) : Prop := NoDup (map fst d).
Definition dictionaries (s : params) : Prop :=
  forall p pid d, dget pid (pfield p s) = Some d -> distinct d.
Definition default_present (deflt : string) (s : params) : Prop := forall p, has_ID s p deflt.
(** the identifier of the default parameter set of a model type: "10" for the single-phase
    model, "50" for the three-phase models; the other types have none *)
Definition default_set (model id : string) : Prop :=
  (model = "SolarPVDERSinglePhase" /\ id = "10") \/
  (In model ["SolarPVDERThreePhase"; "SolarPVDERThreePhaseNoVrmsFilter"; "SolarPVDERThreePhaseNumba"] /\ id = "50").
Lemma default_set_iff model id : default_set model id <-> get_default_parameter_ID model = Ok id.
Proof.
  unfold default_set, get_default_parameter_ID. destruct (String.eqb_spec model "SolarPVDERSinglePhase") as [->|N].
  - split; [intros [[_ ->]|[H _]]; [reflexivity|]; cbn in H; intuition discriminate|intros [= <-]; left; auto].
  - destruct (existsb (String.eqb model) _) eqn:E.
    + apply existsb_exists in E as (x & Hx & Ex). apply String.eqb_eq in Ex. subst x. split; [intros [[H _]|[_ ->]]; [contradiction|reflexivity]|intros [= <-]; right; auto].
    + split; [|discriminate]. intros [[H _]|[H _]]; [contradiction|]. exfalso. assert (Q : existsb (String.eqb model) ["SolarPVDERThreePhase"; "SolarPVDERThreePhaseNoVrmsFilter"; "SolarPVDERThreePhaseNumba"] = true) by (apply existsb_exists; exists model; split; auto; apply String.eqb_refl). congruence.
Qed.

(** update_parameter_dict sets exactly the given parameters of the given type and
    ID; an unknown ID raises KeyError and changes nothing. *)
Theorem C43_update_partial :
  forall model s pid p d, In model (map fst DER_design_template) -> distinct d ->
  exists s' r, update_parameter_dict model s pid (pname p) d = (s', r) /\
  (has_ID s p pid -> r = Ok tt /\
     forall q pid' k, param s' q pid' k =
       if String.eqb (pname q) (pname p) && String.eqb pid' pid
       then match dget k d with Some v => Some v | None => param s q pid' k end
       else param s q pid' k) /\
  (~ has_ID s p pid -> s' = s /\ (d <> [] -> r = Raise KeyError)) /\
  (forall q pid', has_ID s' q pid' <-> has_ID s q pid').
Proof.
  intros model s pid p d Hm Nd. apply dget_key in Hm as [t Ht]. rewrite (update_eq _ _ _ _ _ _ Ht).
  destruct d as [|kv d'] eqn:Ed.
  - do 2 eexists. split; [reflexivity|]. split; [|split; [|tauto]].
    + intros _. split; auto. intros q pid' k. cbn. now destruct (_ && _).
    + intros _. split; auto. intros C; now elim C.
  - rewrite <- Ed in *. clear Ed kv d'. unfold has_ID. destruct (dget pid (pfield p s)) as [cur|] eqn:Ec.
    + do 2 eexists. split; [reflexivity|]. split; [|split].
      * intros _. split; auto. intros q pid' k. unfold param. rewrite pfield_pset.
        destruct (String.eqb (pname q) (pname p)) eqn:Eq; cbn [andb]; auto.
        apply pname_eqb in Eq. subst q.
        rewrite dget_dset. destruct (String.eqb pid' pid) eqn:Ep; auto.
        apply String.eqb_eq in Ep. subst. rewrite Ec, dget_dupdate by exact Nd. reflexivity.
      * intros C. exfalso. apply C. apply dget_key. eauto.
      * intros q pid'. rewrite pfield_pset. destruct (String.eqb (pname q) (pname p)) eqn:Eq; [|tauto].
        apply pname_eqb in Eq. subst q. rewrite dset_keys. unfold dmem. rewrite Ec. tauto.
    + do 2 eexists. split; [reflexivity|]. split; [|split; [|tauto]].
      * intros C. apply dget_key in C as [? C]. congruence.
      * auto.
Qed.
Print Assumptions C43_update_partial.

(** Unknown parameter types raise ValueError; a component of the template that is
    not a parameter type is accepted and ignored. *)
Theorem C43_unknown_type_partial :
  forall model t s pid ty d, dget model DER_design_template = Some t -> ~ In ty (map pname ptypes) ->
  update_parameter_dict model s pid ty d = (s, if dmem ty t then Ok tt else Raise ValueError).
Proof.
  intros model t s pid ty d Ht Hn. unfold update_parameter_dict. rewrite Ht. destruct (dmem ty t); cbn [negb]; auto.
  destruct (pparse ty) as [p|] eqn:E; auto. apply pparse_some in E. exfalso. apply Hn. subst. apply in_map. destruct p; cbn; tauto.
Qed.
Print Assumptions C43_unknown_type_partial.

(** Refuted: any key is accepted, known or not. *)
Theorem C43_unknown_keys_refuted :
  forall model s pid p k v, In model (map fst DER_design_template) -> has_ID s p pid ->
  exists s', update_parameter_dict model s pid (pname p) [(k, v)] = (s', Ok tt) /\ param s' p pid k = Some v.
Proof.
  intros model s pid p k v Hm Hi.
  destruct (C43_update_partial model s pid p [(k, v)] Hm) as (s' & r & E & H & _).
  { repeat constructor. cbn. tauto. }
  destruct (H Hi) as [-> H']. exists s'. split; auto. rewrite H'. cbn. rewrite !String.eqb_refl. destruct p; reflexivity.
Qed.
Print Assumptions C43_unknown_keys_refuted.

(** ** Saving and loading *)
Lemma dset_id {A} k (v : A) d : dget k d = Some v -> dset k v d = d.
Proof.
  induction d as [|[k' v'] d IH]; cbn; [discriminate|]. destruct (String.eqb k k') eqn:E; intros H; [congruence|].
  now rewrite IH.
Qed.
Lemma dset_dset {A} k (v w : A) d : dset k v (dset k w d) = dset k v d.
Proof.
  induction d as [|[k' v'] d IH]; cbn; [now rewrite String.eqb_refl|].
  destruct (String.eqb k k') eqn:E; cbn; rewrite E; congruence.
Qed.

(** One field after [update] *)
Definition upd (pid : string) (d : dict) (f : list (string * dict)) : option (list (string * dict)) :=
  match dget pid f with Some cur => Some (dset pid (dupdate cur d) f) | None => None end.
Lemma update_upd model t s pid p d : dget model DER_design_template = Some t -> has_ID s p pid ->
  update_parameter_dict model s pid (pname p) d =
  match upd pid d (pfield p s) with Some x => (pset p s x, Ok tt) | None => (s, Raise KeyError) end.
Proof.
  intros Ht Hi. rewrite (update_eq _ _ _ _ _ _ Ht). apply dget_key in Hi as [cur Hc]. unfold upd. rewrite Hc.
  destruct d; auto. cbn. rewrite dset_id, pset_same; auto.
Qed.

(** [seq] over the five types for steps that are only known on states with the ID. *)
Lemma seq_upd (f : ptype -> params -> params * res unit) (g : ptype -> list (string * dict) -> option (list (string * dict))) s :
  (forall p s', pfield p s' = pfield p s -> f p s' = match g p (pfield p s) with Some x => (pset p s' x, Ok tt) | None => (s', Raise KeyError) end) ->
  (forall p, exists x, g p (pfield p s) = Some x) ->
  exists s', seq (map f ptypes) s = (s', Ok tt) /\ forall p, g p (pfield p s) = Some (pfield p s').
Proof.
  intros Hf H. destruct (H PModule) as [x1 H1], (H PInverter) as [x2 H2], (H PCircuit) as [x3 H3], (H PGains) as [x4 H4], (H PSteady) as [x5 H5].
  exists (Params x1 x2 x3 x4 x5). split; [|intros []; assumption].
  destruct s as [a b c d e]. cbn in *.
  rewrite Hf by reflexivity. cbn. rewrite H1. cbn. rewrite Hf by reflexivity. cbn. rewrite H2. cbn. rewrite Hf by reflexivity. cbn. rewrite H3. cbn.
  rewrite Hf by reflexivity. cbn. rewrite H4. cbn. rewrite Hf by reflexivity. cbn. rewrite H5. reflexivity.
Qed.

Lemma create_ok model deflt s pid : get_default_parameter_ID model = Ok deflt -> default_present deflt s ->
  exists s', create_parameter_dict model s pid = (s', Ok tt) /\
  forall p d, dget deflt (pfield p s) = Some d -> pfield p s' = dset pid (map (fun kv => (fst kv, VNone)) d) (pfield p s).
Proof.
  intros Hd Hp. unfold create_parameter_dict. rewrite Hd.
  destruct (seq_ok (create_one deflt pid) (fun _ f => match dget deflt f with Some d => Some (dset pid (map (fun kv => (fst kv, VNone)) d) f) | None => None end) (create_one_eq deflt pid) s) as (s' & E & H).
  - intros p. destruct (proj1 (dget_key _ _) (Hp p)) as [d ->]. eauto.
  - exists s'. split; auto. intros p d Ed. specialize (H p). rewrite Ed in H. congruence.
Qed.

Lemma default_model model deflt : get_default_parameter_ID model = Ok deflt -> exists t, dget model DER_design_template = Some t.
Proof.
  unfold get_default_parameter_ID. destruct (String.eqb model "SolarPVDERSinglePhase") eqn:E; [apply String.eqb_eq in E; subst; intros _; eexists; vm_compute; reflexivity|].
  destruct (existsb _ _) eqn:E2; [|discriminate]. intros _. apply existsb_exists in E2 as (x & Hx & Ex). apply String.eqb_eq in Ex. subst.
  cbn in Hx. destruct Hx as [<-|[<-|[<-|[]]]]; eexists; vm_compute; reflexivity.
Qed.

Lemma initialize_ok model deflt s pid : get_default_parameter_ID model = Ok deflt -> default_present deflt s ->
  exists s', initialize_parameter_dict model s pid deflt = (s', Ok tt) /\
  forall p d, dget deflt (pfield p s) = Some d ->
    pfield p s' = dset pid (let nn := map (fun kv => (fst kv, VNone)) d in
                            dupdate nn (if String.eqb pid deflt then nn else d)) (pfield p s).
Proof.
  intros Hd Hp. destruct (default_model _ _ Hd) as [t Ht].
  destruct (create_ok model deflt s pid Hd Hp) as (s1 & E1 & H1).
  unfold initialize_parameter_dict. rewrite E1.
  assert (A : forall p d, dget deflt (pfield p s) = Some d ->
     let nn := map (fun kv => (fst kv, VNone)) d in
     dget pid (pfield p s1) = Some nn /\ dget deflt (pfield p s1) = Some (if String.eqb pid deflt then nn else d)).
  { intros p d Ed nn. rewrite (H1 _ _ Ed), !dget_dset, String.eqb_refl. split; auto.
    rewrite String.eqb_sym. destruct (String.eqb pid deflt) eqn:E; auto. }
  destruct (seq_upd (copy_one model pid deflt)
     (fun p f => match dget deflt f with Some d => upd pid d f | None => None end) s1) as (s2 & E2 & H2).
  - intros p s' Es. unfold copy_one. rewrite Es. destruct (proj1 (dget_key _ _) (Hp p)) as [d Ed].
    destruct (A p d Ed) as [A1 A2]. rewrite A2. rewrite (update_upd _ _ _ _ _ _ Ht), Es; auto.
    unfold has_ID. rewrite Es. apply dget_key. eauto.
  - intros p. destruct (proj1 (dget_key _ _) (Hp p)) as [d Ed]. destruct (A p d Ed) as [A1 A2]. rewrite A2. unfold upd. rewrite A1. eauto.
  - exists s2. split; [exact E2|]. intros p d Ed. destruct (A p d Ed) as [A1 A2]. specialize (H2 p). cbn beta in H2.
    rewrite A2 in H2. unfold upd in H2. rewrite A1 in H2.
    assert (E3 : pfield p s2 = dset pid (dupdate (map (fun kv => (fst kv, VNone)) d) (if String.eqb pid deflt then map (fun kv => (fst kv, VNone)) d else d)) (pfield p s1)) by congruence.
    rewrite E3, (H1 _ _ Ed), dset_dset. reflexivity.
Qed.

Lemma load_ok model deflt s fs f d0 : get_default_parameter_ID model = Ok deflt -> default_present deflt s -> dget f fs = Some d0 ->
  exists s', load_parameter_dictionary model s fs f = (s', Ok d0) /\
  forall p d, dget deflt (pfield p s) = Some d ->
    pfield p s' = dset (before_dot f) (let nn := map (fun kv => (fst kv, VNone)) d in
       dupdate (dupdate nn (if String.eqb (before_dot f) deflt then nn else d)) d0) (pfield p s).
Proof.
  intros Hd Hp Hf. destruct (default_model _ _ Hd) as [t Ht].
  destruct (initialize_ok model deflt s (before_dot f) Hd Hp) as (s1 & E1 & H1).
  unfold load_parameter_dictionary. rewrite Hf, Hd, E1.
  destruct (seq_upd (fun p s => update_parameter_dict model s (before_dot f) (pname p) d0) (fun p => upd (before_dot f) d0) s1) as (s2 & E2 & H2).
  - intros p s' Es. rewrite (update_upd _ _ _ _ _ _ Ht), Es; auto.
    unfold has_ID. rewrite Es. destruct (proj1 (dget_key _ _) (Hp p)) as [d Ed]. rewrite (H1 _ _ Ed).
    apply dget_key. rewrite dget_dset_same. eauto.
  - intros p. destruct (proj1 (dget_key _ _) (Hp p)) as [d Ed]. unfold upd. rewrite (H1 _ _ Ed), dget_dset_same. eauto.
  - exists s2. rewrite E2. split; auto. intros p d Ed. specialize (H2 p). cbn beta in H2. unfold upd in H2.
    rewrite (H1 _ _ Ed), dget_dset_same in H2.
    match type of H2 with Some ?x = Some _ => assert (E3 : pfield p s2 = x) by congruence end. rewrite E3. apply dset_dset.
Qed.

(** get_parameter_dictionary of all types *)
Lemma get_all s pid d : get_parameter_dictionary s "all" pid = Ok d ->
  exists dm di dc dg dz, dget pid (p_mod s) = Some dm /\ dget pid (p_inv s) = Some di /\ dget pid (p_circ s) = Some dc /\
    dget pid (p_gain s) = Some dg /\ dget pid (p_ss s) = Some dz /\
    d = dupdate (dupdate (dupdate (dupdate (dupdate [] dm) di) dc) dg) dz.
Proof.
  unfold get_parameter_dictionary. cbn. destruct (dmem pid (p_mod s)); cbn; [|discriminate].
  unfold dsub. destruct (dget pid (p_mod s)) as [dm|]; cbn; [|discriminate].
  destruct (dget pid (p_inv s)) as [di|]; cbn; [|discriminate].
  destruct (dget pid (p_circ s)) as [dc|]; cbn; [|discriminate].
  destruct (dget pid (p_gain s)) as [dg|]; cbn; [|discriminate].
  destruct (dget pid (p_ss s)) as [dz|]; cbn; [|discriminate].
  intros H. exists dm, di, dc, dg, dz. repeat split; congruence.
Qed.
Lemma get_all_ok s pid dm di dc dg dz : dget pid (p_mod s) = Some dm -> dget pid (p_inv s) = Some di -> dget pid (p_circ s) = Some dc ->
    dget pid (p_gain s) = Some dg -> dget pid (p_ss s) = Some dz ->
    get_parameter_dictionary s "all" pid = Ok (dupdate (dupdate (dupdate (dupdate (dupdate [] dm) di) dc) dg) dz).
Proof.
  intros H1 H2 H3 H4 H5. unfold get_parameter_dictionary, dmem, dsub. cbn. rewrite H1. cbn. rewrite ?H1, H2, H3, H4, H5. reflexivity.
Qed.

Lemma distinct_nones (d : dict) : distinct d -> distinct (map (fun kv => (fst kv, VNone)) d).
Proof. unfold distinct. now rewrite map_keys_none. Qed.
Lemma dget_nones k (d : dict) : dget k (map (fun kv => (fst kv, VNone)) d) = match dget k d with Some _ => Some VNone | None => None end.
Proof. induction d as [|[k' v'] d IH]; cbn; auto. destruct (String.eqb k k'); auto. Qed.

(** What save_parameter_dictionary writes is exactly what get_parameter_dictionary
    returns, and no other file is touched.  Loading it - into this or any other
    DER of the type that has the default ID, with anything done in between as
    long as the file is intact - returns the saved values, gives every saved
    parameter its saved value and leaves all other IDs alone; parameters that were
    not saved get the default ID's value. *)
Theorem C43_save_load_partial :
  forall model deflt s fs pid fs' fname s2 fs2,
  default_set model deflt -> no_dot pid ->
  dictionaries s -> dictionaries s2 -> default_present deflt s2 ->
  save_parameter_dictionary s fs pid "pickle" = (fs', Ok fname) ->
  dget fname fs2 = dget fname fs' ->
  (forall f, f <> fname -> dget f fs' = dget f fs) /\
  exists saved s3 back,
    get_parameter_dictionary s "all" pid = Ok saved /\
    load_parameter_dictionary model s2 fs2 fname = (s3, Ok saved) /\
    get_parameter_dictionary s3 "all" pid = Ok back /\
    (forall k v, dget k saved = Some v -> dget k back = Some v) /\
    (forall p pid' k, pid' <> pid -> param s3 p pid' k = param s2 p pid' k) /\
    (pid <> deflt -> forall p k, dget k saved = None -> param s3 p pid k = param s2 p deflt k).
Proof.
  intros model deflt s fs pid fs' fname s2 fs2 Hd%default_set_iff Hn D1 D2 Hp Hs Hf2.
  unfold save_parameter_dictionary in Hs. destruct (get_parameter_dictionary s "all" pid) as [d|] eqn:Eg; [|discriminate].
  cbn in Hs. assert (Hs1 : fs' = dset (pid ++ ".pkl") d fs) by congruence. assert (Hs2 : fname = pid ++ ".pkl") by congruence. subst fs' fname. clear Hs.
  split; [intros f N; now apply dget_dset_other|].
  rewrite dget_dset_same in Hf2.
  destruct (load_ok model deflt s2 fs2 _ _ Hd Hp Hf2) as (s3 & E3 & H3). rewrite (before_dot_pkl _ Hn) in H3.
  assert (Nd : distinct d).
  { apply get_all in Eg as (dm & di & dc & dg & dz & _ & _ & _ & _ & _ & ->). unfold distinct. do 5 apply dupdate_nodup. constructor. }
  assert (F : forall p, exists e, dget pid (pfield p s3) = Some e /\ distinct e /\
      (forall k, dget k e = match dget k d with Some v => Some v | None =>
          if String.eqb pid deflt then match param s2 p deflt k with Some _ => Some VNone | None => None end else param s2 p deflt k end)).
  { intros p. destruct (proj1 (dget_key _ _) (Hp p)) as [dd Edd]. pose proof (D2 _ _ _ Edd) as Ndd.
    rewrite (H3 _ _ Edd), dget_dset_same. eexists. split; [reflexivity|]. split.
    - unfold distinct. do 2 apply dupdate_nodup. now apply distinct_nones.
    - intros k. cbv zeta. rewrite dget_dupdate by exact Nd. destruct (dget k d); auto.
      unfold param. rewrite Edd. rewrite dget_dupdate by (destruct (String.eqb pid deflt); auto; now apply distinct_nones).
      destruct (String.eqb pid deflt); rewrite !dget_nones; destruct (dget k dd); auto. }
  destruct (F PModule) as (e1 & G1 & N1 & K1), (F PInverter) as (e2 & G2 & N2 & K2), (F PCircuit) as (e3 & G3 & N3 & K3),
    (F PGains) as (e4 & G4 & N4 & K4), (F PSteady) as (e5 & G5 & N5 & K5).
  exists d, s3, (dupdate (dupdate (dupdate (dupdate (dupdate [] e1) e2) e3) e4) e5).
  split; [reflexivity|]. split; [exact E3|]. split; [now apply get_all_ok|]. split; [|split].
  - intros k v Ek. rewrite dget_dupdate by exact N5. rewrite K5, Ek. reflexivity.
  - intros p pid' k N. unfold param. destruct (proj1 (dget_key _ _) (Hp p)) as [dd Edd]. rewrite (H3 _ _ Edd).
    now rewrite dget_dset_other.
  - intros N p k Ek. unfold param at 1. destruct (F p) as (e & -> & _ & K). rewrite K, Ek.
    apply String.eqb_neq in N. now rewrite N.
Qed.
Print Assumptions C43_save_load_partial.

(** Refuted: the types are mixed up.  After loading, every saved parameter is in
    every one of the five dictionaries, e.g. the controller gains among the module
    parameters. *)
Theorem C43_types_mixed_refuted :
  forall model deflt s fs f saved, default_set model deflt ->
  dictionaries s -> default_present deflt s -> dget f fs = Some saved -> distinct saved ->
  exists s', load_parameter_dictionary model s fs f = (s', Ok saved) /\
  forall p k v, dget k saved = Some v -> param s' p (before_dot f) k = Some v.
Proof.
  intros model deflt s fs f d Hd%default_set_iff D Hp Hf Nd. destruct (load_ok model deflt s fs f d Hd Hp Hf) as (s' & E & H).
  exists s'. split; auto. intros p k v Ek. destruct (proj1 (dget_key _ _) (Hp p)) as [dd Edd].
  unfold param. rewrite (H _ _ Edd), dget_dset_same. cbv zeta. rewrite dget_dupdate by exact Nd. now rewrite Ek.
Qed.
Print Assumptions C43_types_mixed_refuted.

(** Refuted: an ID with a dot is loaded under the text before the dot. *)
Theorem C43_dotted_id_refuted :
  forall model deflt s fs a b saved, default_set model deflt -> no_dot a ->
  default_present deflt s -> dget ((a ++ String "."%char b) ++ ".pkl") fs = Some saved ->
  exists s', load_parameter_dictionary model s fs ((a ++ String "."%char b) ++ ".pkl") = (s', Ok saved) /\
  (forall p, has_ID s' p a) /\
  (forall p k, param s' p (a ++ String "."%char b) k = param s p (a ++ String "."%char b) k).
Proof.
  intros model deflt s fs a b d Hd%default_set_iff Hn Hp Hf.
  assert (B : before_dot ((a ++ String "."%char b) ++ ".pkl") = a).
  { clear - Hn. induction a as [|c a IH]; cbn in *; auto. destruct Hn as [H1 H2].
    destruct (Ascii.eqb c ".") eqn:E; [apply Ascii.eqb_eq in E; contradiction|]. now rewrite IH. }
  destruct (load_ok model deflt s fs _ d Hd Hp Hf) as (s' & E & H). rewrite B in H.
  exists s'. split; auto. split; intros p; destruct (proj1 (dget_key _ _) (Hp p)) as [dd Edd].
  - unfold has_ID. rewrite (H _ _ Edd). apply dget_key. rewrite dget_dset_same. eauto.
  - intros k. unfold param. rewrite (H _ _ Edd), dget_dset_other; auto.
    clear. intros C. induction a as [|c a IH]; cbn in C; [discriminate|]. injection C as C. auto.
Qed.
Print Assumptions C43_dotted_id_refuted.

(** Refuted: a DER whose own ID is not its type's default ID ('10' or '50'), or
    whose type has no default ID, can never get another parameter dictionary:
    after any history of calls it has its own ID only, and every attempt to
    create, initialise or load one raises. *)
Theorem C43_default_id_refuted :
  forall model own m i c g z history,
  ~ default_set model own ->
  let s := fold_left (pstep model) history (fresh_params own m i c g z) in
  (forall p pid, has_ID s p pid <-> pid = own) /\
  (forall pid, exists s' e, create_parameter_dict model s pid = (s', Raise e)) /\
  (forall pid src, exists s' e, initialize_parameter_dict model s pid src = (s', Raise e)) /\
  (forall fs f, exists s' e, load_parameter_dictionary model s fs f = (s', Raise e)).
Proof.
  intros model own m i c g z history Hne0 s. assert (Hne : get_default_parameter_ID model <> Ok own) by (rewrite <- default_set_iff; exact Hne0). clear Hne0.
  assert (C : forall s, (forall p, map fst (pfield p s) = [own]) -> forall pid,
     exists e, create_parameter_dict model s pid = (s, Raise e)).
  { intros s0 Hs pid. unfold create_parameter_dict. destruct (get_default_parameter_ID model) as [deflt|e]; eauto.
    rewrite (seq_first_fails (create_one deflt pid) (fun _ f => match dget deflt f with Some d => Some (dset pid (map (fun kv => (fst kv, VNone)) d) f) | None => None end) (create_one_eq deflt pid)); [eauto|].
    assert (N : dget deflt (pfield PModule s0) = None).
    { apply dget_nokey. rewrite Hs. cbn. intros [H|[]]. congruence. }
    now rewrite N. }
  assert (I : forall s, (forall p, map fst (pfield p s) = [own]) -> forall pid src,
     exists e, initialize_parameter_dict model s pid src = (s, Raise e)).
  { intros s0 Hs pid src. unfold initialize_parameter_dict. destruct (C s0 Hs pid) as [e ->]. eauto. }
  assert (L : forall s, (forall p, map fst (pfield p s) = [own]) -> forall fs f,
     exists e, load_parameter_dictionary model s fs f = (s, Raise e)).
  { intros s0 Hs fs f. unfold load_parameter_dictionary. destruct (dget f fs) as [d|]; eauto.
    destruct (get_default_parameter_ID model) as [deflt|e]; eauto.
    destruct (I s0 Hs (before_dot f) deflt) as [e ->]. eauto. }
  assert (Inv : forall p, map fst (pfield p s) = [own]).
  { subst s. set (s0 := fresh_params own m i c g z).
    assert (H0 : forall p, map fst (pfield p s0) = [own]) by (intros []; reflexivity).
    clearbody s0. revert s0 H0. induction history as [|o h IH]; intros s0 H0; cbn [fold_left]; [exact H0|].
    apply IH. destruct o as [pid|pid src|pid ty d|fs f]; cbn [pstep].
    - destruct (C _ H0 pid) as [e ->]. exact H0.
    - destruct (I _ H0 pid src) as [e ->]. exact H0.
    - unfold update_parameter_dict. destruct (dget model DER_design_template); auto.
      destruct (negb _); auto. destruct (pparse ty) as [p|]; auto. destruct d; auto.
      destruct (dget pid (pfield p s0)) eqn:E; auto. cbn [fst]. intros q. rewrite pfield_pset.
      destruct (String.eqb (pname q) (pname p)); auto. rewrite dset_keys. unfold dmem. rewrite E. auto.
    - destruct (L _ H0 fs f) as [e ->]. exact H0. }
  split; [|split; [|split]].
  - intros p pid. unfold has_ID. rewrite Inv. cbn. intuition.
  - intros pid. destruct (C s Inv pid) as [e ?]; eauto.
  - intros pid src. destruct (I s Inv pid src) as [e ?]; eauto.
  - intros fs f. destruct (L s Inv fs f) as [e ?]; eauto.
Qed.
Print Assumptions C43_default_id_refuted.

(** Refuted: the steady-state values cannot be read back on their own, and copying
    the default dictionary onto itself erases it. *)
Theorem C43_steadystate_refuted :
  forall s pid, get_parameter_dictionary s (pname PSteady) pid = Raise ValueError.
Proof. reflexivity. Qed.
Print Assumptions C43_steadystate_refuted.
Theorem C43_self_copy_refuted :
  forall model deflt s, default_set model deflt -> dictionaries s -> default_present deflt s ->
  exists s', initialize_parameter_dict model s deflt deflt = (s', Ok tt) /\
  forall p k v, param s p deflt k = Some v -> param s' p deflt k = Some VNone.
Proof.
  intros model deflt s Hd%default_set_iff D Hp. destruct (initialize_ok model deflt s deflt Hd Hp) as (s' & E & H).
  exists s'. split; auto. intros p k v. unfold param. destruct (proj1 (dget_key _ _) (Hp p)) as [dd Edd].
  rewrite Edd, (H _ _ Edd), dget_dset_same, String.eqb_refl. cbv zeta. intros Ek.
  rewrite dget_dupdate by (apply distinct_nones; eapply D; eauto). now rewrite dget_nones, Ek.
Qed.
Print Assumptions C43_self_copy_refuted.

(** Concrete case: a three-phase DER with ID '50', a new ID 'new' copied from it and
    changed, saved and loaded into a fresh DER. *)
Definition fresh50 : params := fresh_params "50" [("Np", VInt 11); ("Ns", VInt 735)] [("Srated", VFloat 50000)]
   [("Rf_actual", VFloat (2#1000))] [("Kp_DC", VFloat (-2))] [("maR0", VFloat (89#100))].
Definition changed50 : params :=
  fold_left (pstep "SolarPVDERThreePhase") [OInit "new" "50"; OUpdate "new" "controller_gains" [("Kp_DC", VFloat (-3))]] fresh50.
Example C43_hypotheses_met :
  default_set "SolarPVDERThreePhase" "50" /\ no_dot "new" /\ default_present "50" fresh50 /\
  dictionaries fresh50 /\ dictionaries changed50 /\
  (exists fs, save_parameter_dictionary changed50 [] "new" "pickle" = (fs, Ok "new.pkl") /\
     let s3 := fst (load_parameter_dictionary "SolarPVDERThreePhase" fresh50 fs "new.pkl") in
     param s3 PGains "new" "Kp_DC" = Some (VFloat (-3)) /\ param s3 PGains "50" "Kp_DC" = Some (VFloat (-2)) /\
     param s3 PModule "new" "Np" = Some (VInt 11) /\
     param changed50 PModule "new" "Kp_DC" = None /\ param s3 PModule "new" "Kp_DC" = Some (VFloat (-3))).
Proof.
  assert (W : forall s, forallb (fun p => forallb (fun e => nodupb (map fst (snd e))) (pfield p s)) ptypes = true -> dictionaries s).
  { intros s H p pid d Ed. rewrite forallb_forall in H. assert (Hp : In p ptypes) by (destruct p; cbn; tauto).
    specialize (H p Hp). rewrite forallb_forall in H. specialize (H _ (dget_In _ _ _ Ed)). now apply nodupb_iff. }
  split; [right; split; [cbn; tauto|reflexivity]|]. split; [cbn; repeat split; discriminate|]. split; [intros []; cbn; tauto|].
  split; [apply W; reflexivity|]. split; [apply W; reflexivity|].
  eexists. split; [vm_compute; reflexivity|]. vm_compute. repeat split.
Qed.

(** The dictionaries of a new DER are read back under the documented names of the
    types: each name gives the section of that name. *)
Theorem C43_types_by_name_partial :
  forall own m i c g z, let s := fresh_params own m i c g z in
  get_parameter_dictionary s "module_parameters" own = Ok (dupdate [] m) /\
  get_parameter_dictionary s "inverter_ratings" own = Ok (dupdate [] i) /\
  get_parameter_dictionary s "circuit_parameters" own = Ok (dupdate [] c) /\
  get_parameter_dictionary s "controller_gains" own = Ok (dupdate [] g) /\
  param s PModule own = (fun k => dget k m) /\ param s PInverter own = (fun k => dget k i) /\
  param s PCircuit own = (fun k => dget k c) /\ param s PGains own = (fun k => dget k g) /\ param s PSteady own = (fun k => dget k z).
Proof.
  intros. assert (E : forall (d : dict), dget own [(own, d)] = Some d) by (intros; cbn; now rewrite String.eqb_refl).
  unfold param, s, fresh_params. cbn [pfield p_mod p_inv p_circ p_gain p_ss]. rewrite !E.
  unfold get_parameter_dictionary, dmem. cbn [p_mod]. rewrite E. unfold dsub.
  repeat split; cbn; rewrite ?String.eqb_refl; cbn; reflexivity.
Qed.
Print Assumptions C43_types_by_name_partial.
