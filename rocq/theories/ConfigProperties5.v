(** Property C79: where the ride-through settings of a DER come from. *)
From Verif Require Import Base ConfigValues ConfigData ConfigModel ConfigSpec ConfigLemmas ConfigProofs ConfigProperties.
Open Scope string_scope.

(** ** Specification *)
(** The settings of a ride-through block: its "config", else the "config" of the
    file entry named by its "config_id". *)
Definition block_settings (file : cfgfile) (block : dict) (v : pv) : Prop :=
  dget "config" block = Some v \/
  (dget "config" block = None /\ exists id e, dget "config_id" block = Some (VStr id) /\ @dget dict id file = Some e /\ dget "config" e = Some v).
(** A voltage zone is completed with a stopped timer and no breach. *)
Definition completed_zone (a b : string * pv) : Prop :=
  exists l z z', a = (l, VDict z) /\ b = (l, VDict z') /\
  forall p, dget p z' = match dget p z with
                        | Some x => Some x
                        | None => if String.eqb p "t_start" then Some (VFloat 0)
                                  else if String.eqb p "threshold_breach" then Some (VBool false) else None end.
Definition delay_names : list string := ["output_cessation_delay"; "output_restore_delay"; "restore_Vdc"].

(** ** Proofs *)
Lemma mapR_Forall2 {A B} (f : A -> res B) l r : mapR f l = Ok r -> Forall2 (fun a b => f a = Ok b) l r.
Proof.
  revert r. induction l as [|a l IH]; cbn; intros r H.
  - injection H as <-. constructor.
  - destruct (f a) as [b|] eqn:E; cbn in H; [|discriminate]. destruct (mapR f l) as [bs|]; cbn in H; [|discriminate].
    injection H as <-. constructor; auto.
Qed.
Lemma zone_ok a b : default_zone a = Ok b -> completed_zone a b.
Proof.
  destruct a as [l v]. destruct v; cbn; try discriminate. intros H. injection H as <-.
  exists l, d. eexists. split; [reflexivity|]. split; [reflexivity|]. intros p.
  assert (E1 : forall q, dget q (if dmem "t_start" d then d else dset "t_start" (VFloat 0) d) =
     match dget q d with Some x => Some x | None => if String.eqb q "t_start" then Some (VFloat 0) else None end).
  { intros q. destruct (dmem "t_start" d) eqn:Em.
    - destruct (dget q d) eqn:Eq; auto. destruct (String.eqb q "t_start") eqn:En; auto.
      apply String.eqb_eq in En. subst. apply dmem_dget in Em as [? ?]. congruence.
    - rewrite dget_dset. destruct (String.eqb q "t_start") eqn:En.
      + apply String.eqb_eq in En. subst. apply dmem_false in Em. now rewrite Em.
      + destruct (dget q d); auto. }
  set (z1 := if dmem "t_start" d then d else dset "t_start" (VFloat 0) d) in *.
  destruct (dmem "threshold_breach" z1) eqn:Em.
  - rewrite E1. destruct (dget p d) eqn:Eq; auto. destruct (String.eqb p "t_start"); auto.
    destruct (String.eqb p "threshold_breach") eqn:En; auto. apply String.eqb_eq in En. subst.
    apply dmem_dget in Em as [x Em]. rewrite E1, Eq in Em. discriminate.
  - rewrite dget_dset. destruct (String.eqb p "threshold_breach") eqn:En.
    + apply String.eqb_eq in En. subst. apply dmem_false in Em. rewrite E1 in Em.
      destruct (dget "threshold_breach" d); [discriminate|]. reflexivity.
    + rewrite E1. destruct (dget p d); auto.
Qed.

Lemma zones_ok out rt out' : default_zones out rt = Ok out' ->
  exists zs zs', dget rt out = Some (VDict zs) /\ dget rt out' = Some (VDict zs') /\ Forall2 completed_zone zs zs' /\
    forall n, n <> rt -> dget n out' = dget n out.
Proof.
  unfold default_zones, dsub. destruct (dget rt out) as [v|]; cbn [bindR]; [|discriminate].
  destruct v; try discriminate. destruct (mapR default_zone d) as [zs'|] eqn:E; cbn [bindR]; [|discriminate].
  intros H. injection H as <-. exists d, zs'. split; auto. split; [apply dget_dset_same|]. split.
  - apply mapR_Forall2 in E. induction E; constructor; auto. now apply zone_ok.
  - intros n Hn. now apply dget_dset_other.
Qed.

Lemma delays_ok out out' : default_delays out = Ok out' ->
  exists v v', dget "VRT_delays" out = Some v /\ dget "VRT_delays" out' = Some v' /\
    (forall d, v = VDict d -> exists d', v' = VDict d' /\
       forall p, dget p d' = match dget p d with Some x => Some x | None => dget p template_delays end) /\
    forall n, n <> "VRT_delays" -> dget n out' = dget n out.
Proof.
  unfold default_delays, dsub. destruct (dget "VRT_delays" out) as [v|]; cbn [bindR]; [|discriminate].
  match goal with |- context [foldR ?f v template_delays] => set (g := f) end.
  destruct (foldR g v template_delays) as [v'|] eqn:E; cbn [bindR]; [|discriminate].
  intros H. injection H as <-. exists v, v'. split; auto. split; [apply dget_dset_same|]. split.
  - intros d ->. revert E.
    assert (G : forall l d, NoDup (map fst l) -> foldR g (VDict d) l = Ok v' -> exists d', v' = VDict d' /\
       forall p, dget p d' = match dget p d with Some x => Some x | None => dget p l end).
    { induction l as [|[k x] l IH]; cbn [foldR]; intros d0 N H.
      - injection H as <-. exists d0. split; auto. intros p. cbn. destruct (dget p d0); auto.
      - cbn in N. inversion N as [|? ? Nk Nl]; subst. unfold g at 1 in H. cbn [pmem bindR fst snd] in H.
        destruct (dmem k d0) eqn:Em; cbn [bindR] in H.
        + destruct (IH d0 Nl H) as (d' & -> & Hp). exists d'. split; auto. intros p. rewrite Hp. cbn [dget].
          destruct (dget p d0) eqn:Ep; auto. destruct (String.eqb p k) eqn:En; auto. apply String.eqb_eq in En. subst.
          apply dmem_dget in Em as [? ?]. congruence.
        + destruct (IH _ Nl H) as (d' & -> & Hp). exists d'. split; auto. intros p. rewrite Hp, dget_dset. cbn [dget].
          destruct (String.eqb p k) eqn:En; auto. apply String.eqb_eq in En. subst. apply dmem_false in Em. now rewrite Em. }
    intros E. apply (G template_delays); auto. apply nodupb_iff. reflexivity.
  - intros n Hn. now apply dget_dset_other.
Qed.

Lemma select_ok file design l : forall out out', NoDup l -> foldR (select_RT file design) out l = Ok out' ->
  (forall n, ~ In n l -> dget n out' = dget n out) /\
  (forall n block, In n l -> dget n design = Some (VDict block) ->
     (exists v, block_settings file block v /\ dget n out' = Some v) \/
     ((forall v, ~ block_settings file block v) /\ dget n out' = dget n out)).
Proof.
  induction l as [|rt l IH]; cbn [foldR]; intros out out' N H.
  - injection H as <-. split; [auto|]. intros ? ? [].
  - inversion N as [|? ? Nr Nl]; subst. destruct (select_RT file design out rt) as [o1|] eqn:E; cbn [bindR] in H; [|discriminate].
    destruct (IH _ _ Nl H) as [I1 I2].
    assert (S1 : forall n, n <> rt -> dget n o1 = dget n out).
    { intros n Hn. unfold select_RT, dsub in E. destruct (dget rt design) as [b|]; cbn [bindR] in E; [|discriminate].
      destruct (pmem "config" b) as [[]|]; cbn [bindR] in E; try discriminate.
      - destruct (pget "config" b); cbn [bindR] in E; [|discriminate]. injection E as <-. now apply dget_dset_other.
      - destruct (pmem "config_id" b) as [[]|]; cbn [bindR] in E; try discriminate; [|congruence].
        destruct (pget "config_id" b) as [i|]; cbn [bindR] in E; [|discriminate]. destruct i; try discriminate.
        destruct (dget s file) as [e|]; cbn [bindR] in E; [|discriminate].
        destruct (dget "config" e); cbn [bindR] in E; [|discriminate]. injection E as <-. now apply dget_dset_other. }
    split.
    + intros n Hn. cbn in Hn. rewrite I1 by tauto. apply S1. intros ->. tauto.
    + intros n block Hin Hb. destruct (string_dec n rt) as [->|Ne].
      * rewrite I1 by auto. unfold select_RT, dsub in E. rewrite Hb in E. cbn [bindR pmem pget] in E.
        destruct (dmem "config" block) eqn:Em; cbn [bindR] in E.
        -- destruct (dget "config" block) as [v|] eqn:Ec; cbn [bindR] in E; [|discriminate]. injection E as <-.
           left. exists v. split; [now left|]. apply dget_dset_same.
        -- apply dmem_false in Em. destruct (dmem "config_id" block) eqn:Ei; cbn [bindR] in E.
           ++ destruct (dget "config_id" block) as [i|] eqn:Ec; cbn [bindR] in E; [|discriminate]. destruct i; try discriminate.
              destruct (dget s file) as [e|] eqn:Ef; cbn [bindR] in E; [|discriminate].
              destruct (dget "config" e) as [v|] eqn:Ev; cbn [bindR] in E; [|discriminate]. injection E as <-.
              left. exists v. split; [|apply dget_dset_same]. right. split; auto. exists s, e. auto.
           ++ injection E as <-. apply dmem_false in Ei. right. split; auto.
              intros v [Hv | (_ & i & e & Hv & _)]; congruence.
      * destruct Hin as [->|Hin]; [congruence|]. destruct (I2 _ _ Hin Hb) as [?|[? Hx]]; auto.
        right. split; auto. rewrite Hx. now apply S1.
Qed.
Lemma settings_fun file block v w : block_settings file block v -> block_settings file block w -> v = w.
Proof.
  intros [H | (H & i & e & H1 & H2 & H3)] [K | (K & j & f & K1 & K2 & K3)]; try congruence.
Qed.

(** For every DER the library creates: each kind of ride-through settings is taken
    from the DER's own block if its configuration has one, else from the template
    (never from a parent, see C40), "config" taking precedence over "config_id";
    frequency settings are used as they are, voltage zones keep every entry and
    get a stopped timer and a cleared breach flag, missing delays come from the
    template. *)
Theorem C79_ridethrough_settings :
  forall model file id kwargs s cfg t, setup_DER model file id kwargs = Ok s ->
  @dget dict id file = Some cfg -> dget model DER_design_template = Some t -> components_are_objects t cfg ->
  (forall n b, In n (map fst RT_components) -> dget n cfg = Some b -> exists d, b = VDict d) ->
  forall n dflt, dget n RT_components = Some (VDict dflt) ->
  forall block, block = match dget n cfg with Some (VDict b) => b | _ => dflt end ->
  (n <> "FRT_delays" -> exists v, block_settings file block v) /\
  (forall v, block_settings file block v ->
     (In n ["LFRT"; "HFRT"; "FRT_delays"] -> dget n (s_RT s) = Some v) /\
     (In n ["LVRT"; "HVRT"] -> exists zs zs', v = VDict zs /\ dget n (s_RT s) = Some (VDict zs') /\ Forall2 completed_zone zs zs') /\
     (n = "VRT_delays" -> forall d, v = VDict d -> exists d', dget n (s_RT s) = Some (VDict d') /\
        forall p, dget p d' = match dget p d with Some x => Some x | None => if instr p delay_names then dget p template_delays else None end)).
Proof.
  intros model file id kwargs s cfg t Hs Hc Ht Ho Hrt n dflt Hn block Hblock.
  apply setup_inv in Hs as (t' & cfg' & Ht' & Hc' & _ & _ & Ha & Hd & Hr & Hk & _).
  assert (t' = t) by congruence. assert (cfg' = cfg) by congruence. subst t' cfg'.
  pose proof (templates_ok _ _ Ht) as OK.
  destruct (design_ok t (complete_with t cfg) (complete_with t []) (s_args s) OK) with (d := s_design s) as (_ & D & _); auto.
  { apply complete_present. } { now apply complete_objects. } { apply complete_present. }
  { apply complete_objects. intros ? ? ? ? X; discriminate X. }
  { intros c Hin. rewrite Ha. eapply arguments_no_component; eauto. }
  assert (NT : forall k, In k (map fst RT_components) -> instr k (map fst t) = false).
  { intros k Hin. assert (A : forallb (fun kv => forallb (fun r => negb (instr r (map fst (snd kv)))) (map fst RT_components)) DER_design_template = true)
      by (vm_compute; reflexivity).
    rewrite forallb_forall in A. apply dget_In in Ht. apply A in Ht. cbn [snd] in Ht. rewrite forallb_forall in Ht.
    apply Ht in Hin. now apply negb_true_iff. }
  assert (DD : forall k b, dget k RT_components = Some (VDict b) ->
      dget k (s_design s) = Some (VDict (match dget k cfg with Some (VDict b') => b' | _ => b end))).
  { intros k b Hk'. assert (Hin : In k (map fst RT_components)) by (apply dget_key; eauto).
    rewrite (D _ _ Hk'). rewrite Ha, (arguments_no_component model t) by (auto).
    unfold complete_with. rewrite !mem_complete, (NT _ Hin). cbn [dget].
    destruct (dget k cfg) as [c|] eqn:Ec; auto. destruct (Hrt _ _ Hin Ec) as [b' ->]. reflexivity. }
  unfold update_RT_config in Hr.
  destruct (foldR (select_RT file (s_design s)) [] (map fst RT_components)) as [o0|] eqn:E0; cbn [bindR] in Hr; [|discriminate].
  destruct (default_zones o0 "LVRT") as [o1|] eqn:E1; cbn [bindR] in Hr; [|discriminate].
  destruct (default_zones o1 "HVRT") as [o2|] eqn:E2; cbn [bindR] in Hr; [|discriminate].
  apply select_ok in E0 as [_ SEL]; [|apply RT_nodup].
  apply zones_ok in E1 as (l1 & l1' & A1 & A2 & A3 & A4).
  apply zones_ok in E2 as (h1 & h1' & B1 & B2 & B3 & B4).
  apply delays_ok in Hr as (w & w' & C1 & C2 & C3 & C4).
  assert (Hin : In n (map fst RT_components)) by (apply dget_key; eauto).
  specialize (SEL n block Hin). rewrite (DD n dflt Hn), <- Hblock in SEL. specialize (SEL eq_refl). cbn [dget] in SEL.
  assert (LF : forall k, In k ["LFRT"; "HFRT"] -> exists v, dget k o0 = Some v).
  { intros k Hk'. unfold check_RT_config in Hk. cbn [foldR] in Hk.
    assert (X : forall k, (exists u, check_RT (s_RT s) k = Ok u) -> exists v, dget k (s_RT s) = Some v).
    { intros k0 [u Hu]. unfold check_RT, dsub in Hu. destruct (dget k0 (s_RT s)); [eauto|discriminate]. }
    destruct (check_RT (s_RT s) "LVRT"); cbn [bindR] in Hk; [|discriminate].
    destruct (check_RT (s_RT s) "HVRT"); cbn [bindR] in Hk; [|discriminate].
    destruct (check_RT (s_RT s) "LFRT") as [u1|] eqn:K1; cbn [bindR] in Hk; [|discriminate].
    destruct (check_RT (s_RT s) "HFRT") as [u2|] eqn:K2; cbn [bindR] in Hk; [|discriminate].
    cbn in Hk'. destruct Hk' as [<-|[<-|[]]].
    - destruct (X "LFRT") as [v Hv]; [eauto|]. exists v. rewrite <- Hv, C4, B4, A4 by discriminate. reflexivity.
    - destruct (X "HFRT") as [v Hv]; [eauto|]. exists v. rewrite <- Hv, C4, B4, A4 by discriminate. reflexivity. }
  assert (B1' : dget "HVRT" o0 = Some (VDict h1)) by (rewrite <- B1; symmetry; apply A4; discriminate).
  assert (C1' : dget "VRT_delays" o0 = Some w) by (rewrite <- C1, B4, A4 by discriminate; reflexivity).
  split.
  - intros Nf. destruct SEL as [(v & Hv & _)|[_ Hno]]; [eauto|]. exfalso.
    assert (M : forallb (fun k => instr k ["LVRT"; "HVRT"; "VRT_delays"; "LFRT"; "HFRT"; "FRT_delays"]) (map fst RT_components) = true)
      by (vm_compute; reflexivity).
    rewrite forallb_forall in M. apply M in Hin. apply instr_iff in Hin. cbn in Hin.
    destruct Hin as [<-|[<-|[<-|[<-|[<-|[<-|[]]]]]]]; try congruence;
      [destruct (LF "LFRT") as [? ?]; [cbn; tauto|congruence] | destruct (LF "HFRT") as [? ?]; [cbn; tauto|congruence]].
  - intros v Hv. destruct SEL as [(v' & Hv' & Ho0)|[Hno _]]; [|exfalso; eapply Hno; eauto].
    assert (v' = v) by (eapply settings_fun; eauto). subst v'. split; [|split].
    + intros Hi. cbn in Hi. destruct Hi as [<-|[<-|[<-|[]]]]; rewrite C4, B4, A4 by discriminate; auto.
    + intros Hi. cbn in Hi. destruct Hi as [<-|[<-|[]]].
      * exists l1, l1'. split; [congruence|]. split; [|auto]. rewrite C4, B4 by discriminate. auto.
      * exists h1, h1'. split; [congruence|]. split; [|auto]. rewrite C4 by discriminate. auto.
    + intros -> d ->. destruct (C3 d) as (d' & -> & Hd'); [congruence|]. exists d'. split; auto.
      intros p. rewrite Hd'. destruct (dget p d); auto. destruct (instr p delay_names) eqn:Ep; auto.
      apply dget_nokey. intros Hx. assert (K : instr p delay_names = true); [|congruence].
      apply instr_iff. exact Hx.
Qed.
Print Assumptions C79_ridethrough_settings.

Lemma select_fails file design n block ref l : In n l -> dget n design = Some (VDict block) ->
  dget "config" block = None -> dget "config_id" block = Some (VStr ref) -> @dget dict ref file = None ->
  forall out out', foldR (select_RT file design) out l <> Ok out'.
Proof.
  intros Hin Hb Hn Hi Hf. induction l as [|k l IH]; [destruct Hin|]. intros out out' H. cbn [foldR] in H.
  destruct (select_RT file design out k) as [o1|] eqn:E; cbn [bindR] in H; [|discriminate].
  destruct (string_dec k n) as [->|Ne].
  - unfold select_RT, dsub in E. rewrite Hb in E. cbn [bindR pmem pget] in E. unfold dmem in E. rewrite Hn, Hi in E. cbn [bindR] in E.
    rewrite Hf in E. discriminate.
  - destruct Hin as [->|Hin]; [congruence|]. exact (IH Hin _ _ H).
Qed.

(** A reference to settings that the configuration file does not contain makes the
    construction of the DER fail, whichever ride-through block holds it. *)
Theorem C79_dangling_reference_rejected :
  forall model file id kwargs cfg t, @dget dict id file = Some cfg -> dget model DER_design_template = Some t ->
  components_are_objects t cfg ->
  (forall n b, In n (map fst RT_components) -> dget n cfg = Some b -> exists d, b = VDict d) ->
  forall n block ref, In n (map fst RT_components) -> dget n cfg = Some (VDict block) ->
  dget "config" block = None -> dget "config_id" block = Some (VStr ref) -> @dget dict ref file = None ->
  forall s, setup_DER model file id kwargs <> Ok s.
Proof.
  intros model file id kwargs cfg t Hc Ht Ho Hrt n block ref Hin Hb Hnc Hid Hf s Hs.
  apply setup_inv in Hs as (t' & cfg' & Ht' & Hc' & _ & _ & Ha & Hd & Hr & Hk & _).
  assert (t' = t) by congruence. assert (cfg' = cfg) by congruence. subst t' cfg'.
  pose proof (templates_ok _ _ Ht) as OK.
  destruct (design_ok t (complete_with t cfg) (complete_with t []) (s_args s) OK) with (d := s_design s) as (_ & D & _); auto.
  { apply complete_present. } { now apply complete_objects. } { apply complete_present. }
  { apply complete_objects. intros ? ? ? ? X; discriminate X. }
  { intros c Hi. rewrite Ha. eapply arguments_no_component; eauto. }
  assert (NT : instr n (map fst t) = false).
  { assert (A : forallb (fun kv => forallb (fun r => negb (instr r (map fst (snd kv)))) (map fst RT_components)) DER_design_template = true)
      by (vm_compute; reflexivity).
    rewrite forallb_forall in A. apply dget_In in Ht. apply A in Ht. cbn [snd] in Ht. rewrite forallb_forall in Ht.
    apply Ht in Hin. now apply negb_true_iff. }
  assert (OB : forallb (fun kv => match snd kv with VDict _ => true | _ => false end) RT_components = true) by (vm_compute; reflexivity).
  assert (DD : dget n (s_design s) = Some (VDict block)).
  { assert (Hdf : exists dflt, dget n RT_components = Some (VDict dflt)).
    { apply in_map_iff in Hin as ([k v] & <- & Hi). destruct (dget k RT_components) as [w|] eqn:E.
      - cbn [fst]. rewrite E. apply dget_In in E. rewrite forallb_forall in OB. specialize (OB _ E). cbn [snd] in OB. destruct w; try discriminate. eauto.
      - exfalso. apply dget_nokey in E. apply E. apply in_map_iff. exists (k, v). auto. }
    destruct Hdf as [dflt Hdf]. rewrite (D _ _ Hdf). rewrite Ha, (arguments_no_component model t) by auto.
    unfold complete_with. rewrite !mem_complete, NT. cbn [dget]. rewrite Hb. reflexivity. }
  unfold update_RT_config in Hr.
  destruct (foldR (select_RT file (s_design s)) [] (map fst RT_components)) as [o0|] eqn:E0; cbn [bindR] in Hr; [|discriminate].
  exact (select_fails file (s_design s) n block ref _ Hin DD Hnc Hid Hf _ _ E0).
Qed.
Print Assumptions C79_dangling_reference_rejected.

(** ** The check of the settings *)
Definition level_settings (n : string) : list string :=
  if instr n ["LVRT"; "HVRT"] then ["V_threshold"; "t_threshold"; "t_min_ridethrough"; "mode"; "t_start"; "threshold_breach"]
  else if String.eqb n "LFRT" then ["F_LF"; "t_LF_limit"; "t_LFstart"] else ["F_HF"; "t_HF_limit"; "t_HFstart"].
Definition has_settings (rtc : dict) (n p : string) : Prop :=
  forall zs l z, dget n rtc = Some (VDict zs) -> In (l, VDict z) zs -> exists v, dget p z = Some v.

Lemma foldR_unit {B} (f : B -> res unit) l : (forall b, In b l -> f b = Ok tt \/ f b = Raise ValueError) ->
  (foldR (fun _ b => f b) tt l = Ok tt /\ forall b, In b l -> f b = Ok tt) \/
  (foldR (fun _ b => f b) tt l = Raise ValueError /\ exists b, In b l /\ f b = Raise ValueError).
Proof.
  induction l as [|b l IH]; intros H; cbn [foldR]; [left; split; [auto|intros ? []]|].
  destruct (H b) as [E|E]; [now left| |]; rewrite E; cbn [bindR].
  - destruct IH as [[A1 A2]|[A1 (c & A2 & A3)]]; [intros; apply H; now right| |].
    + left. split; auto. intros c [<-|Hc]; auto.
    + right. split; auto. exists c. split; auto. now right.
  - right. split; auto. exists b. split; auto. now left.
Qed.

(** For well-formed tables the check accepts iff every level of every table has
    all its settings; otherwise it raises ValueError. *)
Theorem C79_missing_settings_rejected :
  forall rtc, (forall n, In n ["LVRT"; "HVRT"; "LFRT"; "HFRT"] ->
     exists zs, dget n rtc = Some (VDict zs) /\ forall l z, In (l, z) zs -> exists d, z = VDict d) ->
  (check_RT_config rtc = Ok tt /\
     forall n p, In n ["LVRT"; "HVRT"; "LFRT"; "HFRT"] -> In p (level_settings n) -> has_settings rtc n p) \/
  (check_RT_config rtc = Raise ValueError /\
     exists n p, In n ["LVRT"; "HVRT"; "LFRT"; "HFRT"] /\ In p (level_settings n) /\ ~ has_settings rtc n p).
Proof.
  intros rtc W.
  assert (RS : forall n, In n ["LVRT"; "HVRT"; "LFRT"; "HFRT"] -> required_settings n = level_settings n).
  { intros n Hn. cbn in Hn. destruct Hn as [<-|[<-|[<-|[<-|[]]]]]; vm_compute; reflexivity. }
  assert (ONE : forall n, In n ["LVRT"; "HVRT"; "LFRT"; "HFRT"] ->
    (check_RT rtc n = Ok tt /\ forall p, In p (level_settings n) -> has_settings rtc n p) \/
    (check_RT rtc n = Raise ValueError /\ exists p, In p (level_settings n) /\ ~ has_settings rtc n p)).
  { intros n Hn. destruct (W n Hn) as (zs & Hz & Wz). unfold check_RT, dsub. rewrite Hz. cbn [bindR]. rewrite RS by auto.
    set (g := fun setting => foldR (fun _ (lv : string * pv) => do m <- pmem setting (snd lv); if m then Ok tt else Raise ValueError) tt zs).
    assert (G : forall p, (g p = Ok tt /\ has_settings rtc n p) \/ (g p = Raise ValueError /\ ~ has_settings rtc n p)).
    { intros p. unfold g.
      destruct (foldR_unit (fun lv : string * pv => do m <- pmem p (snd lv); if m then Ok tt else Raise ValueError) zs) as [[A1 A2]|[A1 (b & A2 & A3)]].
      - intros [l z] Hin. destruct (Wz l z Hin) as [d ->]. cbn. destruct (dmem p d); auto.
      - left. split; auto. intros zs' l z Hz' Hin. assert (zs' = zs) by congruence. subst zs'.
        apply A2 in Hin. cbn in Hin. destruct (dmem p z) eqn:E; [|discriminate]. now apply dmem_dget.
      - right. split; auto. intros Hh. destruct b as [l z]. destruct (Wz l z A2) as [d ->].
        destruct (Hh zs l d Hz A2) as [v Hv]. cbn in A3. unfold dmem in A3. rewrite Hv in A3. discriminate. }
    destruct (foldR_unit g (level_settings n)) as [[A1 A2]|[A1 (p & A2 & A3)]].
    - intros p _. destruct (G p) as [[? _]|[? _]]; auto.
    - left. split; auto. intros p Hp. apply A2 in Hp. destruct (G p) as [[_ ?]|[? _]]; [auto|congruence].
    - right. split; auto. exists p. split; auto. destruct (G p) as [[? _]|[_ ?]]; [congruence|auto]. }
  unfold check_RT_config.
  destruct (foldR_unit (fun rt => check_RT rtc rt) ["LVRT"; "HVRT"; "LFRT"; "HFRT"]) as [[A1 A2]|[A1 (n & A2 & A3)]].
  - intros n Hn. destruct (ONE n Hn) as [[? _]|[? _]]; auto.
  - left. split; auto. intros n p Hn Hp. destruct (ONE n Hn) as [[_ H]|[E _]]; [auto|]. rewrite (A2 n Hn) in E. discriminate.
  - right. split; auto. destruct (ONE n A2) as [[E _]|[_ (p & Hp & Hh)]]; [congruence|]. exists n, p. auto.
Qed.
Print Assumptions C79_missing_settings_rejected.

(** Concrete: file_ex's DER takes its LVRT settings from the entry LVRT_1547cat3 and
    the others from the template; a zone without a mode is rejected. *)
Example C79_hypotheses_met : exists s cfg,
  setup_DER "SolarPVDERThreePhase" file_ex "50" kw_ex = Ok s /\ @dget dict "50" file_ex = Some cfg /\
  (forall n b, In n (map fst RT_components) -> dget n cfg = Some b -> exists d, b = VDict d) /\
  (exists z, dget "LVRT" (s_RT s) = Some (VDict [("1", VDict z)]) /\ dget "t_start" z = Some (VFloat 0) /\
             dget "mode" z = Some (VStr "momentary_cessation")) /\
  (exists z, dget "LFRT" (s_RT s) = Some (VDict z) /\ List.length z = 2%nat) /\
  setup_DER "SolarPVDERThreePhase"
    [("50", [("basic_specs", VDict [("model_type", VStr "SolarPVDERThreePhase")]);
             ("inverter_ratings", VDict [("Srated", VFloat 50000); ("Vrmsrated", VFloat 177)]);
             ("LVRT", VDict [("config", VDict [("1", VDict [("V_threshold", VFloat (88#100)); ("t_threshold", VFloat 5);
                  ("t_min_ridethrough", VInt 20)])])])])] "50" [("gridModel", VGrid)] = Raise ValueError /\
  setup_DER "SolarPVDERThreePhase"
    [("50", [("basic_specs", VDict [("model_type", VStr "SolarPVDERThreePhase")]);
             ("inverter_ratings", VDict [("Srated", VFloat 50000); ("Vrmsrated", VFloat 177)]);
             ("LVRT", VDict [("config_id", VStr "nowhere")])])] "50" [("gridModel", VGrid)] = Raise KeyError.
Proof.
  do 2 eexists. split; [vm_compute; reflexivity|]. split; [reflexivity|]. split; [|split; [|split]].
  - intros n b Hn. cbn in Hn. destruct Hn as [<-|[<-|[<-|[<-|[<-|[<-|[]]]]]]]; intros H; vm_compute in H; try discriminate; injection H as <-; eauto.
  - eexists. split; [reflexivity|]. split; reflexivity.
  - eexists. split; [reflexivity|]. reflexivity.
  - split; vm_compute; reflexivity.
Qed.
