(** Properties C115 (frequency ride-through settings) and C116 (displayed
    ride-through settings). *)
From Verif Require Import Base ConfigValues ConfigData ConfigModel ConfigLemmas FRTSettingsModel.
Open Scope string_scope.

(** * C115 *)
(** the value of one setting of one level *)
Definition setting (rtc : dict) (n level p : string) : option pv :=
  match dget n rtc with
  | Some (VDict b) => match dget level b with Some (VDict z) => dget p z | _ => None end
  | _ => None
  end.
(** settings a JSON file can hold: two levels with numeric frequencies and limits
    (any further levels may be present) and the option *)
Definition number (o : option pv) (q : Q) : Prop := o = Some (VFloat q) \/ exists z, o = Some (VInt z) /\ q = inject_Z z.
Record frequency_settings (rtc : dict) (lf1 lf2 hf1 hf2 : Q) (instantaneous : bool) : Prop := FS {
  fs_lf1 : number (setting rtc "LFRT" "1" "F_LF") lf1; fs_lf2 : number (setting rtc "LFRT" "2" "F_LF") lf2;
  fs_hf1 : number (setting rtc "HFRT" "1" "F_HF") hf1; fs_hf2 : number (setting rtc "HFRT" "2" "F_HF") hf2;
  fs_lim : forall l, In l ["1"; "2"] -> (exists q, number (setting rtc "LFRT" l "t_LF_limit") q) /\
                                       (exists q, number (setting rtc "HFRT" l "t_HF_limit") q);
  fs_opt : exists d, dget "FRT_delays" rtc = Some (VDict d) /\ dget "FRT_INSTANTANEOUS_TRIP" d = Some (VBool instantaneous) }.

Lemma read_ok rtc n l k v : setting rtc n l k = Some v -> read rtc n l k = Ok v.
Proof.
  unfold setting, read, dsub. destruct (dget n rtc) as [b|]; [|discriminate]. cbn [bindR].
  destruct b; try discriminate. cbn [pget]. destruct (dget l d) as [z|]; [|discriminate]. cbn [bindR].
  destruct z; try discriminate. cbn [pget]. intros ->. reflexivity.
Qed.
Lemma write_ok rtc n l k0 v0 k v : setting rtc n l k0 = Some v0 ->
  exists r, write rtc n l k v = Ok r /\
    (forall n' l' k', setting r n' l' k' =
      if String.eqb n' n && String.eqb l' l && String.eqb k' k then Some v else setting rtc n' l' k') /\
    (forall n', n' <> n -> dget n' r = dget n' rtc).
Proof.
  unfold setting, write, dsub. destruct (dget n rtc) as [b|] eqn:En; [|discriminate]. cbn [bindR].
  destruct b; try discriminate. cbn [pget]. destruct (dget l d) as [z|] eqn:El; [|discriminate]. cbn [bindR].
  destruct z as [| | | | |z| | | |]; try discriminate. intros H. eexists. split; [reflexivity|]. split.
  - intros n' l' k'. rewrite dget_dset. destruct (String.eqb n' n) eqn:E1; cbn [andb]; [|reflexivity].
    apply String.eqb_eq in E1. subst n'. rewrite En, dget_dset. destruct (String.eqb l' l) eqn:E2; cbn [andb]; [|reflexivity].
    apply String.eqb_eq in E2. subst l'. rewrite El, dget_dset. destruct (String.eqb k' k); reflexivity.
  - intros n' Hn. now apply dget_dset_other.
Qed.
Lemma same_ok rtc n l k v : setting rtc n l k = Some v ->
  exists r, rewrite_same rtc (n, l, k) = Ok r /\ (forall n' l' k', setting r n' l' k' = setting rtc n' l' k') /\
    (forall n', n' <> n -> dget n' r = dget n' rtc).
Proof.
  intros H. unfold rewrite_same. rewrite (read_ok _ _ _ _ _ H). cbn [bindR].
  destruct (write_ok rtc n l k v k v H) as (r & E & S & D). exists r. split; [exact E|]. split; [|exact D].
  intros n' l' k'. rewrite S. destruct (String.eqb n' n && String.eqb l' l && String.eqb k' k)%bool eqn:B; [|reflexivity].
  apply andb_true_iff in B as [B B3]. apply andb_true_iff in B as [B1 B2]. apply String.eqb_eq in B1, B2, B3. now subst.
Qed.
Lemma number_num o q : number o q -> exists v, o = Some v /\ num v = Ok q.
Proof. intros [->|(z & -> & ->)]; eexists; split; reflexivity. Qed.
Lemma check_pair_ok rtc n k a b : number (setting rtc n "1" k) a -> number (setting rtc n "2" k) b ->
  check_pair rtc n k = if qlt a b then Ok tt else Raise ValueError.
Proof.
  intros Ha Hb. apply number_num in Ha as (va & Ea & Na). apply number_num in Hb as (vb & Eb & Nb).
  unfold check_pair. rewrite (read_ok _ _ _ _ _ Eb), (read_ok _ _ _ _ _ Ea). cbn [bindR]. rewrite Nb, Na. cbn [bindR]. reflexivity.
Qed.

(** what the option does to the limits *)
Definition limits_in_force (instantaneous : bool) (rtc r : dict) : Prop :=
  forall n l p, setting r n l p =
    if (instantaneous && existsb (String.eqb n) ["LFRT"; "HFRT"] && existsb (String.eqb l) ["1"; "2"] && String.eqb p "t_LF_limit")%bool
    then Some (VFloat (1#2)) else setting rtc n l p.

(** Settings are accepted exactly when the second low-frequency and the second
    high-frequency threshold are above the first ones, otherwise ValueError.
    Accepted settings stay as configured, except that the option writes half a
    second (30 cycles) under t_LF_limit of the levels 1 and 2, for high frequency as
    well as for low frequency. *)
Theorem C115_frequency_settings_partial :
  forall rtc lf1 lf2 hf1 hf2 inst, frequency_settings rtc lf1 lf2 hf1 hf2 inst ->
  (lf1 < lf2 /\ hf1 < hf2 /\ exists r, FRT_initialize rtc = Ok r /\ limits_in_force inst rtc r) \/
  (~ (lf1 < lf2 /\ hf1 < hf2) /\ FRT_initialize rtc = Raise ValueError).
Proof.
  intros rtc lf1 lf2 hf1 hf2 inst [H1 H2 H3 H4 HL (d & Hd & Ho)].
  assert (S : exists r, set_instantaneous (VBool inst) rtc = Ok r /\ limits_in_force inst rtc r).
  { destruct (HL "1") as [(a1 & A1) (b1 & B1)]; [cbn; auto|]. destruct (HL "2") as [(a2 & A2) (b2 & B2)]; [cbn; auto|].
    apply number_num in A1 as (v1 & A1 & _). apply number_num in A2 as (v2 & A2 & _).
    apply number_num in B1 as (w1 & B1 & _). apply number_num in B2 as (w2 & B2 & _).
    unfold set_instantaneous. cbn [truthy]. destruct inst; cbn [foldR fst snd].
    - destruct (write_ok rtc "LFRT" "1" _ _ "t_LF_limit" (VFloat (1#2)) A1) as (r1 & E1 & S1 & _). rewrite E1. cbn [bindR].
      destruct (write_ok r1 "LFRT" "2" "t_LF_limit" v2 "t_LF_limit" (VFloat (1#2))) as (r2 & E2 & S2 & _); [rewrite S1; exact A2|]. rewrite E2. cbn [bindR].
      destruct (write_ok r2 "HFRT" "1" "t_HF_limit" w1 "t_LF_limit" (VFloat (1#2))) as (r3 & E3 & S3 & _); [rewrite S2, S1; exact B1|]. rewrite E3. cbn [bindR].
      destruct (write_ok r3 "HFRT" "2" "t_HF_limit" w2 "t_LF_limit" (VFloat (1#2))) as (r4 & E4 & S4 & _); [rewrite S3, S2, S1; exact B2|]. rewrite E4. cbn [bindR].
      exists r4. split; [reflexivity|]. intros n l p. rewrite S4, S3, S2, S1. cbn [andb existsb].
      destruct (String.eqb n "LFRT"), (String.eqb n "HFRT"), (String.eqb l "1"), (String.eqb l "2"), (String.eqb p "t_LF_limit"); reflexivity.
    - destruct (same_ok rtc "LFRT" "1" _ _ A1) as (r1 & E1 & S1 & _). rewrite E1. cbn [bindR].
      destruct (same_ok r1 "LFRT" "2" "t_LF_limit" v2) as (r2 & E2 & S2 & _); [rewrite S1; exact A2|]. rewrite E2. cbn [bindR].
      destruct (same_ok r2 "HFRT" "1" "t_HF_limit" w1) as (r3 & E3 & S3 & _); [rewrite S2, S1; exact B1|]. rewrite E3. cbn [bindR].
      destruct (same_ok r3 "HFRT" "2" "t_HF_limit" w2) as (r4 & E4 & S4 & _); [rewrite S3, S2, S1; exact B2|]. rewrite E4. cbn [bindR].
      exists r4. split; [reflexivity|]. intros n l p. rewrite S4, S3, S2, S1. reflexivity. }
  destruct S as (r & E & L).
  assert (P : forall n l p, p <> "t_LF_limit" -> setting r n l p = setting rtc n l p).
  { intros n l p Hp. rewrite L. apply String.eqb_neq in Hp. rewrite Hp, !andb_false_r. reflexivity. }
  assert (K : FRT_initialize rtc = bindR (check_pair r "LFRT" "F_LF") (fun _ => bindR (check_pair r "HFRT" "F_HF") (fun _ => Ok r))).
  { unfold FRT_initialize, dsub at 1 2 3.
    unfold setting in H1, H3. destruct (dget "LFRT" rtc); [|destruct H1 as [H1|(z & H1 & _)]; discriminate].
    destruct (dget "HFRT" rtc); [|destruct H3 as [H3|(z & H3 & _)]; discriminate]. rewrite Hd. cbn [bindR pget]. rewrite Ho. cbn [bindR]. rewrite E. reflexivity. }
  rewrite K. rewrite (check_pair_ok r "LFRT" "F_LF" lf1 lf2), (check_pair_ok r "HFRT" "F_HF" hf1 hf2) by (rewrite P by discriminate; assumption).
  destruct (qlt lf1 lf2) eqn:Q1; cbn [bindR]; [|right; split; [intros [X _]; qb; lra|reflexivity]].
  destruct (qlt hf1 hf2) eqn:Q2; cbn [bindR]; [|right; split; [intros [_ X]; qb; lra|reflexivity]].
  qb. left. split; [assumption|]. split; [assumption|]. exists r. split; [reflexivity|exact L].
Qed.
Print Assumptions C115_frequency_settings_partial.

(** The library's own default settings; a JSON file with a third level. *)
Definition template_settings (inst : bool) : dict :=
  [("LFRT", VDict [("1", VDict [("F_LF", VFloat 57); ("t_LF_limit", VFloat (1#60)); ("t_LFstart", VFloat 0)]);
                   ("2", VDict [("F_LF", VFloat (294#5)); ("t_LF_limit", VFloat 299); ("t_LFstart", VFloat 0)])]);
   ("HFRT", VDict [("1", VDict [("F_HF", VFloat (306#5)); ("t_HF_limit", VFloat 299); ("t_HFstart", VFloat 0)]);
                   ("2", VDict [("F_HF", VFloat 62); ("t_HF_limit", VFloat (1#60)); ("t_HFstart", VFloat 0)])]);
   ("FRT_delays", VDict [("FRT_INSTANTANEOUS_TRIP", VBool inst)])].
Lemma template_is_template : forall n c, In n ["LFRT"; "HFRT"; "FRT_delays"] ->
  (exists d, dget n FRT_config_template = Some (VDict d) /\ dget "config" d = Some c) <-> dget n (template_settings false) = Some c.
Proof.
  intros n c Hn. cbn [In] in Hn. destruct Hn as [<-|[<-|[<-|[]]]]; (split; [intros (d & H1 & H2); vm_compute in H1; injection H1 as <-; exact H2
    | intros H; eexists; split; [vm_compute; reflexivity|exact H]]).
Qed.
Lemma template_wf inst : frequency_settings (template_settings inst) 57 (294#5) (306#5) 62 inst.
Proof.
  constructor; try (left; reflexivity).
  - intros l Hl. cbn [In] in Hl. destruct Hl as [<-|[<-|[]]]; split; eexists; left; reflexivity.
  - eexists. split; reflexivity.
Qed.

(** With the option set, the default settings do not trip within one cycle: no
    high-frequency limit changes, and the first low-frequency limit becomes longer
    than the default it replaces. *)
Theorem C115_instantaneous_refuted :
  exists r, FRT_initialize (template_settings true) = Ok r /\
    (forall l, In l ["1"; "2"] -> setting r "HFRT" l "t_HF_limit" = setting (template_settings false) "HFRT" l "t_HF_limit") /\
    (exists q q', setting (template_settings false) "LFRT" "1" "t_LF_limit" = Some (VFloat q) /\
                  setting r "LFRT" "1" "t_LF_limit" = Some (VFloat q') /\ 1#60 < q' /\ q < q').
Proof.
  eexists. split; [vm_compute; reflexivity|]. split.
  - intros l Hl. cbn [In] in Hl. destruct Hl as [<-|[<-|[]]]; reflexivity.
  - do 2 eexists. split; [reflexivity|]. split; [reflexivity|]. split; reflexivity.
Qed.
Print Assumptions C115_instantaneous_refuted.

(** Any third level is accepted, wherever its threshold lies, and the option does
    not touch it; no limit is checked at all. *)
Theorem C115_further_levels_refuted :
  forall F t : Q, exists rtc, frequency_settings rtc 57 58 61 62 true /\
    setting rtc "LFRT" "3" "F_LF" = Some (VFloat F) /\ setting rtc "LFRT" "3" "t_LF_limit" = Some (VFloat t) /\
    setting rtc "LFRT" "1" "t_LF_limit" = Some (VFloat t) /\
    exists r, FRT_initialize rtc = Ok r /\ setting r "LFRT" "3" "t_LF_limit" = Some (VFloat t).
Proof.
  intros F t.
  set (rtc := [("LFRT", VDict [("1", VDict [("F_LF", VFloat 57); ("t_LF_limit", VFloat t)]);
                   ("2", VDict [("F_LF", VFloat 58); ("t_LF_limit", VFloat 299)]);
                   ("3", VDict [("F_LF", VFloat F); ("t_LF_limit", VFloat t)])]);
   ("HFRT", VDict [("1", VDict [("F_HF", VFloat 61); ("t_HF_limit", VFloat 299)]);
                   ("2", VDict [("F_HF", VFloat 62); ("t_HF_limit", VFloat (1#60))])]);
   ("FRT_delays", VDict [("FRT_INSTANTANEOUS_TRIP", VBool true)])] : dict).
  assert (W : frequency_settings rtc 57 58 61 62 true).
  { constructor; try (left; reflexivity).
    - intros l Hl. cbn [In] in Hl. destruct Hl as [<-|[<-|[]]]; split; eexists; left; reflexivity.
    - eexists. split; reflexivity. }
  exists rtc. split; [exact W|]. do 3 (split; [reflexivity|]).
  destruct (C115_frequency_settings_partial _ _ _ _ _ _ W) as [(_ & _ & r & E & L)|[N _]].
  - exists r. split; [exact E|]. rewrite L. reflexivity.
  - exfalso. apply N. split; reflexivity.
Qed.
Print Assumptions C115_further_levels_refuted.

Example C115_hypotheses_met :
  frequency_settings (template_settings false) 57 (294#5) (306#5) 62 false /\
  is_ok (FRT_initialize (template_settings false)) = true.
Proof. split; [apply template_wf|reflexivity]. Qed.

(** * C116 *)
(** A zone as configured, and the item that shows it *)
Definition zone_of (x : string * pv) (i : item) : Prop :=
  exists z V t tmin mode, snd x = VDict z /\ number (dget "V_threshold" z) V /\ number (dget "t_threshold" z) t /\
    number (dget "t_min_ridethrough" z) tmin /\ dget "mode" z = Some mode /\ i = Zone (fst x) V t tmin mode.
Definition well_formed_zones (d : dict) : Prop := forall x, In x d -> exists i, zone_of x i.

Lemma zone_item_ok x i : zone_of x i -> zone_item x = Ok i.
Proof.
  intros (z & V & t & tm & mode & Hx & HV & Ht & Hm & Hmode & ->).
  apply number_num in HV as (v1 & E1 & N1). apply number_num in Ht as (v2 & E2 & N2). apply number_num in Hm as (v3 & E3 & N3).
  unfold zone_item. rewrite Hx. cbn [pget]. rewrite E1, E2, E3, Hmode. cbn [bindR]. rewrite N1, N2, N3. reflexivity.
Qed.
Lemma zone_items_ok d : well_formed_zones d -> exists is, Forall2 zone_of d is /\ forall out, zone_items out d = ((out ++ is)%list, Ok tt).
Proof.
  induction d as [|x d IH]; intros W.
  - exists []. split; [constructor|]. intros out. cbn. now rewrite app_nil_r.
  - destruct (W x (or_introl eq_refl)) as (i & Hi). destruct IH as (is & F & E); [intros y Hy; apply W; now right|].
    exists (i :: is). split; [constructor; auto|]. intros out. cbn [zone_items]. rewrite (zone_item_ok _ _ Hi), E, <- app_assoc. reflexivity.
Qed.

(** LVRT and HVRT display the flags of that logic, the reference voltage in volts,
    one line per configured level in configuration order, each with that level's own
    threshold (as a fraction of the reference voltage), times and mode, and the
    delays; LFRT displays the two frequencies and limits in force. *)
Definition voltage_display (d : shown_der) (n : string) (zones : list item) : list item :=
  ([Head n; Head "Flags"; Flag (n ++ "_ENABLE") (sd_flags d (n ++ "_ENABLE")); Flag (n ++ "_TRIP") (sd_flags d (n ++ "_TRIP"));
    Flag (n ++ "_MOMENTARY_CESSATION") (sd_flags d (n ++ "_MOMENTARY_CESSATION")); Head "Thresholds"; Num "Vrms_ref" (sd_vref d * sd_vbase d)] ++
   zones ++ [Num "OUTPUT_CESSATION_DELAY" (sd_cessation d); Num "OUTPUT_RESTORE_DELAY" (sd_restore d)])%list.
Theorem C116_displayed_settings_partial :
  forall d per_unit, ~ sd_vref d == 0 ->
  (forall n z, (n = "LVRT" /\ z = sd_lv d) \/ (n = "HVRT" /\ z = sd_hv d) -> well_formed_zones z ->
     exists is, Forall2 zone_of z is /\ show_RT_settings d n per_unit = (voltage_display d n is, Ok tt)) /\
  (forall F1 F2 t1 t2,
     number (setting (sd_rtc d) "LFRT" "1" "F_LF") F1 -> number (setting (sd_rtc d) "LFRT" "2" "F_LF") F2 ->
     number (setting (sd_rtc d) "LFRT" "1" "t_LF_limit") t1 -> number (setting (sd_rtc d) "LFRT" "2" "t_LF_limit") t2 ->
     show_RT_settings d "LFRT" per_unit =
       ([Head "LFRT"; Num "f_ref" (sd_fref d); Num "F_LF1" F1; Num "F_LF2" F2; Num "t_LF1" t1; Num "t_LF2" t2; Head "Flags";
         Flag "LFRT_ENABLE" (sd_flags d "LFRT_ENABLE"); Flag "LFRT_TRIP" (sd_flags d "LFRT_TRIP");
         Flag "FRT_INSTANTANEOUS_TRIP" (sd_flags d "FRT_INSTANTANEOUS_TRIP");
         Num "OUTPUT_CESSATION_DELAY" (sd_cessation d); Num "OUTPUT_RESTORE_DELAY" (sd_restore d)], Ok tt)) /\
  (forall n, ~ In n ["LVRT"; "HVRT"; "LFRT"] -> show_RT_settings d n per_unit = ([], Raise ValueError)).
Proof.
  intros d pu Hv. assert (Z : (pu && qeq (sd_vref d) 0)%bool = false).
  { destruct (qeq (sd_vref d) 0) eqn:E; [apply qeq_iff in E; contradiction|apply andb_false_r]. }
  split; [|split].
  - intros n z Hn W. destruct (zone_items_ok z W) as (is & F & E). exists is. split; [exact F|].
    unfold show_RT_settings. rewrite Z.
    destruct Hn as [[-> ->]|[-> ->]]; cbn [existsb String.eqb negb]; cbv iota zeta; cbn [negb orb String.eqb Ascii.eqb Bool.eqb]; rewrite E;
      unfold andthen, say, voltage_display; cbn [snd fst]; rewrite <- ?app_assoc; reflexivity.
  - intros F1 F2 t1 t2 A B C D.
    apply number_num in A as (va & Ea & Na). apply number_num in B as (vb & Eb & Nb).
    apply number_num in C as (vc & Ec & Nc). apply number_num in D as (vd & Ed & Nd).
    unfold show_RT_settings. rewrite Z. unfold freq.
    rewrite (read_ok _ _ _ _ _ Ea), (read_ok _ _ _ _ _ Eb), (read_ok _ _ _ _ _ Ec), (read_ok _ _ _ _ _ Ed).
    cbn [bindR]. rewrite Na, Nb, Nc, Nd. reflexivity.
  - intros n Hn. unfold show_RT_settings.
    destruct (existsb (String.eqb n) ["LVRT"; "HVRT"; "LFRT"]) eqn:E; [|reflexivity].
    apply existsb_exists in E as (x & Hx & E). apply String.eqb_eq in E. subst. contradiction.
Qed.
Print Assumptions C116_displayed_settings_partial.

(** PER_UNIT never changes the display of a DER with a nonzero reference voltage;
    HFRT settings cannot be displayed; further LFRT levels are not displayed. *)
Theorem C116_display_refuted :
  (forall d n, ~ sd_vref d == 0 -> show_RT_settings d n true = show_RT_settings d n false) /\
  (forall d per_unit, show_RT_settings d "HFRT" per_unit = ([], Raise ValueError)) /\
  (forall d per_unit z, show_RT_settings d "LFRT" per_unit =
     show_RT_settings (ShownDER (sd_lv d) (sd_hv d)
        (match dget "LFRT" (sd_rtc d) with Some (VDict b) => dset "LFRT" (VDict (dset "3" z b)) (sd_rtc d) | _ => sd_rtc d end)
        (sd_flags d) (sd_vref d) (sd_vbase d) (sd_fref d) (sd_cessation d) (sd_restore d)) "LFRT" per_unit).
Proof.
  split; [|split].
  - intros d n Hv. unfold show_RT_settings. cbn [andb].
    destruct (qeq (sd_vref d) 0) eqn:E; [apply qeq_iff in E; contradiction|reflexivity].
  - reflexivity.
  - intros d pu z. unfold show_RT_settings. cbn [sd_lv sd_hv sd_rtc sd_flags sd_vref sd_vbase sd_fref sd_cessation sd_restore].
    assert (R : forall l k, l <> "3" -> freq (match dget "LFRT" (sd_rtc d) with Some (VDict b) => dset "LFRT" (VDict (dset "3" z b)) (sd_rtc d) | _ => sd_rtc d end) l k = freq (sd_rtc d) l k).
    { intros l k Hl. destruct (dget "LFRT" (sd_rtc d)) as [b|] eqn:E; [|reflexivity]. destruct b; try reflexivity.
      unfold freq, read, dsub. rewrite dget_dset_same, E. cbn [bindR pget]. rewrite dget_dset_other by auto. reflexivity. }
    rewrite !R by discriminate. reflexivity.
Qed.
Print Assumptions C116_display_refuted.

Example C116_hypotheses_met :
  let lv := [("1", VDict [("V_threshold", VFloat (88#100)); ("t_threshold", VFloat 5); ("t_min_ridethrough", VInt 2); ("mode", VStr "mandatory_operation")]);
             ("2", VDict [("V_threshold", VFloat (1#2)); ("t_threshold", VFloat 1); ("t_min_ridethrough", VFloat (1#2)); ("mode", VStr "momentary_cessation")])] in
  let d := ShownDER lv lv (template_settings false) (fun _ => true) (354#1000) 500 60 (1#100) (7#4) in
  well_formed_zones lv /\ ~ sd_vref d == 0 /\
  nth 7 (fst (show_RT_settings d "LVRT" true)) (Head "") = Zone "1" (88#100) 5 2 (VStr "mandatory_operation").
Proof.
  cbv zeta. split; [|split; [vm_compute; discriminate|vm_compute; reflexivity]].
  intros x [<-|[<-|[]]]; eexists; do 5 eexists; (split; [reflexivity|]).
  - split; [left; reflexivity|]. split; [left; reflexivity|]. split; [right; eexists; split; reflexivity|]. split; reflexivity.
  - split; [left; reflexivity|]. split; [left; reflexivity|]. split; [left; reflexivity|]. split; reflexivity.
Qed.
