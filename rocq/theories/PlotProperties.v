(** Property C103: what the plots of a simulation show. *)
From Coq Require Import String.
From Verif Require Import Base SimModel PlotModel.
Open Scope string_scope.
Open Scope list_scope.
Open Scope Q_scope.

(** * Specification *)
(** The physical dimension of a quantity and its base value: volts, amperes,
    volt-amperes, or a quantity that has no per-unit form. *)
Inductive dim := Volt | Ampere | VA | NoBase.
Definition base (d : dim) : Q := match d with Volt => 500 | Ampere => 100 | VA => 50000 | NoBase => 1 end.

(** What a label promises: the recorded series (real or imaginary part, or the
    difference of two) and its dimension. *)
Inductive promise := RePart (series : string) (d : dim) | ImPart (series : string) (d : dim) | Difference (a b : string).
Definition promises : list (string * promise) :=
  [("$V_{DC}$", RePart "Vdc_t" Volt);
   ("$v^{inv}_{rms}$", RePart "Vtrms_t" Volt);
   ("$v^{PCC-LV}_{rms}$", RePart "Vrms_t" Volt);
   ("$v^{PCC-LV}_{arms}$", RePart "Varms_t" Volt);
   ("$v^{PCC-LV}_{brms}$", RePart "Vbrms_t" Volt);
   ("$v^{PCC-LV}_{crms}$", RePart "Vcrms_t" Volt);
   ("$v^{PCC-HV}_{rms}$", RePart "Vhvrms_t" Volt);
   ("$v^{grid}_{rms}$", RePart "Vgrms_t" Volt);
   ("$v^{grid}_{d}$", RePart "vdg_t" Volt);
   ("$i^{inv}_{rms}$", RePart "Irms_t" Ampere);
   ("$P^{PV}_{DC}$", RePart "Ppv_t" VA);
   ("$P^{inv}_{AC}$", RePart "S_t" VA);
   ("$Q^{inv}$", ImPart "S_t" VA);
   ("$P^{PCC-LV}_{AC}$", RePart "S_PCC_t" VA);
   ("$P^{PCC-LV}_{ac}$", RePart "S_PCC_t" VA);
   ("$Q^{PCC-LV}$", ImPart "S_PCC_t" VA);
   ("$P^{load1}_{AC}$", RePart "S_load1_t" VA);
   ("$Q^{load1}$", ImPart "S_load1_t" VA);
   ("$P^{G}_{AC}$", RePart "S_G_t" VA);
   ("$Q^{G}$", ImPart "S_G_t" VA);
   ("$\phi^{inv}_{a}$", RePart "phi_at_t" NoBase);
   ("$\phi^{PCC-LV}_{a}$", RePart "phi_a_t" NoBase);
   ("$\phi^{grid}_{a}$", RePart "phi_ag_t" NoBase);
   ("$\phi^{PCC-LV}_{a}-\phi^{grid}_{a}$", Difference "phi_a_t" "phi_ag_t");
   ("$\omega_{grid}$", RePart "wgrid_t" NoBase);
   ("$\omega_{PLL}$", RePart "we_t" NoBase);
   ("ma", RePart "ma_absolute_t" NoBase);
   ("mb", RePart "mb_absolute_t" NoBase);
   ("mc", RePart "mc_absolute_t" NoBase)].

(** [y] is the promised quantity of the recorded series [rec], in per unit or SI. *)
Definition keeps (rec : string -> option series) (per_unit : bool) (p : promise) (y : list Q) : Prop :=
  let scaled d := if per_unit then 1 else base d in
  match p with
  | RePart a d => exists l, rec a = Some l /\ Forall2 (fun c v => v == scaled d * fst c) l y
  | ImPart a d => exists l, rec a = Some l /\ Forall2 (fun c v => v == scaled d * snd c) l y
  | Difference a b => exists l m, rec a = Some l /\ rec b = Some m /\ List.length l = List.length m /\
      y = map (fun p => fst (fst p) - fst (snd p)) (combine l m)
  end.
Definition honest (rec : string -> option series) (per_unit : bool) (time : list Q) (c : curve) : Prop :=
  cv_t c = time /\ List.length (cv_y c) = List.length time /\
  exists p, In (cv_label c, p) promises /\ keeps rec per_unit p (cv_y c).

(** Which labels each plot type shows for a stand-alone DER ([true]) and for one fed
    with measured grid voltages ([false]). *)
Definition both (ty : string) (ls : list string) := [(ty, true, ls); (ty, false, ls)].
Definition table : list (string * bool * list string) :=
  [("power", true, ["$P^{PV}_{DC}$"; "$P^{inv}_{AC}$"; "$Q^{inv}$"; "$P^{PCC-LV}_{AC}$"; "$Q^{PCC-LV}$"; "$P^{load1}_{AC}$"; "$P^{G}_{AC}$"]);
   ("active_power", true, ["$P^{PV}_{DC}$"; "$P^{inv}_{AC}$"; "$P^{PCC-LV}_{AC}$"; "$P^{load1}_{AC}$"; "$P^{G}_{AC}$"]);
   ("reactive_power", true, ["$Q^{inv}$"; "$Q^{PCC-LV}$"; "$Q^{load1}$"; "$Q^{G}$"]);
   ("reactive_power", false, ["$Q^{inv}$"; "$Q^{PCC-LV}$"]);
   ("voltage_HV", true, ["$v^{PCC-HV}_{rms}$"; "$v^{grid}_{rms}$"]);
   ("phase_angle", true, ["$\phi^{inv}_{a}$"; "$\phi^{PCC-LV}_{a}$"; "$\phi^{grid}_{a}$"; "$\phi^{PCC-LV}_{a}-\phi^{grid}_{a}$"]);
   ("frequency", true, ["$\omega_{grid}$"; "$\omega_{PLL}$"])] ++
  both "active_power_Ppv_Pac_PCC" ["$P^{PV}_{DC}$"; "$P^{PCC-LV}_{ac}$"] ++
  both "active_power_Pac_PCC" ["$P^{PCC-LV}_{ac}$"] ++
  both "reactive_power_Q_PCC" ["$Q^{PCC-LV}$"] ++
  both "voltage_Vdc" ["$V_{DC}$"] ++
  both "voltage_LV" ["$v^{inv}_{rms}$"; "$v^{PCC-LV}_{rms}$"] ++
  both "voltage_Vpcclv" ["$v^{PCC-LV}_{rms}$"] ++
  both "voltage_Vpcclv_all_phases" ["$v^{PCC-LV}_{arms}$"] ++
  both "current" ["$i^{inv}_{rms}$"] ++
  both "duty_cycle" ["ma"].
Definition shows (ty : string) (alone : bool) (ls : list string) : Prop := In (ty, alone, ls) table.
(** the series behind the labels of a plot *)
Definition behind (p : promise) : list string :=
  match p with RePart a _ | ImPart a _ => [a] | Difference a b => [a; b] end.
Definition uses (ls : list string) (k : string) : Prop :=
  exists l p, In l ls /\ In (l, p) promises /\ In k (behind p).

(** * Proofs *)
Definition qty_of (p : promise) : qty :=
  let m d := match d with Volt => MV | Ampere => MI | VA => MS | NoBase => M1 end in
  match p with RePart a d => QRe a (m d) | ImPart a d => QIm a (m d) | Difference a b => QDiff a b end.
Definition look (l : string) : option promise := option_map snd (find (fun e => String.eqb l (fst e)) promises).
Fixpoint opt_list {A B} (f : A -> option B) (l : list A) : option (list B) :=
  match l with [] => Some [] | x :: r => match f x, opt_list f r with Some y, Some ys => Some (y :: ys) | _, _ => None end end.
Lemma look_In l p : look l = Some p -> In (l, p) promises.
Proof.
  unfold look. destruct (find _ _) as [[a b]|] eqn:E; cbn; [|discriminate]. intros H. injection H as <-.
  apply find_some in E as [E F]. cbn in F. apply String.eqb_eq in F. now subst.
Qed.

Lemma branch_shows s ty ls : shows ty (ps_alone s) ls ->
  existsb (String.eqb ty) available = true /\
  exists ps, opt_list look ls = Some ps /\ branch s ty = Ok (map qty_of ps, ls).
Proof.
  intros H. unfold shows in H.
  assert (T : String.eqb (class_name (ps_type s)) "SolarPV_DER_ThreePhase" = false) by (destruct (ps_type s); reflexivity).
  unfold branch. rewrite T. clear T. unfold table, both in H. cbn [app In] in H.
  destruct (ps_alone s);
  repeat (destruct H as [H|H]; [first [exfalso; congruence | injection H as <- <-; split; [reflexivity|eexists; split; reflexivity]]|]); destruct H.
Qed.

Lemma multiplier_base pu d : multiplier pu (match d with Volt => MV | Ampere => MI | VA => MS | NoBase => M1 end)
  == (if pu then 1 else base d).
Proof. destruct pu, d; reflexivity. Qed.

Lemma Forall2_map_r {A B} (P : A -> B -> Prop) (f : A -> B) l : (forall x, P x (f x)) -> Forall2 P l (map f l).
Proof. intros H. induction l; constructor; auto. Qed.

Lemma qval_ok s pu p n :
  (forall k, In k (behind p) -> exists l, ps_attr s k = Some l /\ List.length l = n) ->
  exists y, qval s pu (qty_of p) = Ok y /\ List.length y = n /\ keeps (ps_attr s) pu p y.
Proof.
  intros H. destruct p as [a d|a d|a b]; cbn [qty_of qval behind] in *.
  - destruct (H a) as (l & El & Ll); [left; auto|]. unfold aval. rewrite El. cbn [bindR].
    eexists. split; [reflexivity|]. split; [now rewrite map_length|]. cbn [keeps]. exists l. split; auto.
    apply Forall2_map_r. intros x. now rewrite multiplier_base.
  - destruct (H a) as (l & El & Ll); [left; auto|]. unfold aval. rewrite El. cbn [bindR].
    eexists. split; [reflexivity|]. split; [now rewrite map_length|]. cbn [keeps]. exists l. split; auto.
    apply Forall2_map_r. intros x. now rewrite multiplier_base.
  - destruct (H a) as (l & El & Ll); [left; auto|]. destruct (H b) as (m & Em & Lm); [right; left; auto|].
    unfold aval. rewrite El, Em. cbn [bindR]. unfold minus. rewrite (proj2 (Nat.eqb_eq _ _)) by congruence.
    eexists. split; [reflexivity|]. split; [rewrite map_length, combine_length; lia|].
    cbn [keeps]. exists l, m. repeat split; auto; congruence.
Qed.

Lemma collect_ok s pu n : forall ls ps, opt_list look ls = Some ps ->
  (forall k, uses ls k -> exists l, ps_attr s k = Some l /\ List.length l = n) ->
  exists vs, collect (qval s pu) (map qty_of ps) = Ok vs /\
    List.length vs = List.length ls /\ Forall (fun v => List.length v = n) vs /\
    Forall2 (fun l v => exists p, In (l, p) promises /\ keeps (ps_attr s) pu p v) ls vs.
Proof.
  induction ls as [|l ls IH]; intros ps H U; cbn [opt_list] in H.
  - injection H as <-. exists []. cbn. auto.
  - destruct (look l) as [p|] eqn:L; [|discriminate]. destruct (opt_list look ls) as [ps'|] eqn:O; [|discriminate].
    injection H as <-. cbn [map collect]. apply look_In in L.
    destruct (qval_ok s pu p n) as (y & Ey & Ly & Ky).
    { intros k Hk. apply U. exists l, p. repeat split; auto. now left. }
    destruct (IH ps' eq_refl) as (vs & Ev & Lv & Fv & Kv).
    { intros k (l' & p' & A & B & C). apply U. exists l', p'. repeat split; auto. now right. }
    rewrite Ey. cbn [bindR]. rewrite Ev. cbn [bindR]. exists (y :: vs). split; [reflexivity|].
    split; [cbn; congruence|]. split; [constructor; auto|]. constructor; [exists p; auto|auto].
Qed.

Lemma curves_spec (P : curve -> Prop) t : forall ls vs,
  Forall2 (fun l v => P (Curve l t v)) ls vs ->
  map cv_label (curves (repeat t (List.length vs)) vs ls) = ls /\ Forall P (curves (repeat t (List.length vs)) vs ls).
Proof. intros ls vs H. induction H; cbn; [auto|]. destruct IHForall2 as [-> F]. auto. Qed.

Lemma group_ok s1 pu ty ls time : ps_t s1 = Some time -> (2 <= List.length time)%nat ->
  shows ty (ps_alone s1) ls ->
  (forall k, uses ls k -> exists l, ps_attr s1 k = Some l /\ List.length l = List.length time) ->
  existsb (String.eqb ty) available = true /\
  exists b vs, branch s1 ty = Ok b /\ snd b = ls /\ collect (qval s1 pu) (fst b) = Ok vs /\
    sizes_ok (List.length time) vs = true /\ List.length vs = List.length ls /\
    Forall2 (fun l v => honest (ps_attr s1) pu time (Curve l time v)) ls vs.
Proof.
  intros Ht Hn Hs U. destruct (branch_shows s1 ty ls Hs) as (A & ps & O & B). split; auto.
  destruct (collect_ok s1 pu (List.length time) ls ps O U) as (vs & C & L & F & K).
  exists (map qty_of ps, ls), vs. split; auto. split; auto. split; auto. split.
  - unfold sizes_ok. apply forallb_forall. intros v Hv. rewrite Forall_forall in F.
    apply andb_true_iff. split; [apply Nat.eqb_eq; auto|apply Nat.ltb_lt; lia].
  - split; auto. clear -K F. revert F. induction K; intros F; inversion F; subst; constructor; auto.
    split; [reflexivity|]. split; auto.
Qed.

(** ** Batch mode: every working plot draws one curve per label, in order, over the
    whole time axis, and every curve is the quantity its label promises, in per
    unit or multiplied by its base. *)
Theorem C103_plots_batch_partial :
  forall s pu ty ls time,
  ps_loop s = false -> ps_t s = Some time -> (2 <= List.length time)%nat -> shows ty (ps_alone s) ls ->
  (forall k, uses ls k -> exists l, ps_attr s k = Some l /\ List.length l = List.length time) ->
  exists cs, plot s pu ty = Ok cs /\ map cv_label cs = ls /\ Forall (honest (ps_attr s) pu time) cs.
Proof.
  intros s pu ty ls time Hl Ht Hn Hs U. destruct (group_ok s pu ty ls time Ht Hn Hs U) as (A & b & vs & B & Bs & C & Z & L & K).
  unfold plot, group. rewrite A, Hl. cbn [negb bindR]. rewrite Ht. cbn [bindR]. rewrite B. cbn [bindR]. rewrite C. cbn [bindR].
  rewrite Z, Bs. cbn [bindR]. unfold plot_multiple. rewrite repeat_length, L, !Nat.eqb_refl. cbn [andb].
  eexists. split; [reflexivity|]. rewrite <- L. apply curves_spec. auto.
Qed.
Print Assumptions C103_plots_batch_partial.

(** ** Loop mode: the same for the plots whose series are accumulated. *)
Theorem C103_plots_loop_partial :
  forall s pu ty ls time,
  ps_loop s = true -> ps_st s = Some time -> (2 <= List.length time)%nat -> shows ty (ps_alone s) ls ->
  (forall k, In k (invert_list (ps_type s)) -> exists l, ps_stored s k = Some l /\ List.length l = List.length time) ->
  (forall k, uses ls k -> In k (invert_list (ps_type s))) ->
  exists cs, plot s pu ty = Ok cs /\ map cv_label cs = ls /\ Forall (honest (ps_stored s) pu time) cs.
Proof.
  intros s pu ty ls time Hl Ht Hn Hs St U.
  set (s1 := PSim (ps_type s) (ps_alone s) (ps_loop s) (Some time) (ps_st s)
               (fun k => if existsb (String.eqb k) (invert_list (ps_type s)) then ps_stored s k else ps_attr s k) (ps_stored s)).
  assert (I : inverted s = Ok s1).
  { unfold inverted. replace (forallb _ _) with true; [unfold s1; rewrite Ht; reflexivity|].
    symmetry. apply forallb_forall. intros k Hk. destruct (St k Hk) as (l & -> & _). reflexivity. }
  assert (M : forall k, In k (invert_list (ps_type s)) -> ps_attr s1 k = ps_stored s k).
  { intros k Hk. cbn [ps_attr s1]. assert (existsb (String.eqb k) (invert_list (ps_type s)) = true) as ->; auto.
    apply existsb_exists. exists k. split; auto. apply String.eqb_refl. }
  destruct (group_ok s1 pu ty ls time) as (A & b & vs & B & Bs & C & Z & L & K); auto.
  { intros k Hk. rewrite M by auto. apply St. auto. }
  unfold plot, group. rewrite A, Hl. cbn [negb]. rewrite I. cbn [bindR]. cbn [ps_t s1]. rewrite B. cbn [bindR]. rewrite C. cbn [bindR].
  rewrite Z, Bs. cbn [bindR]. unfold plot_multiple. rewrite repeat_length, L, !Nat.eqb_refl. cbn [andb].
  eexists. split; [reflexivity|]. rewrite <- L. apply curves_spec.
  assert (U' : forall l, In l ls -> forall p, In (l, p) promises -> forall v, keeps (ps_attr s1) pu p v -> keeps (ps_stored s) pu p v).
  { intros l Hin p Hp v. destruct p as [a d|a d|a a']; cbn [keeps]; rewrite !M; auto; apply U; exists l; eexists; repeat split; eauto; cbn; auto. }
  clear -K U'. induction K; constructor.
  - destruct H as (A & B & p & P & Q). split; auto. split; auto. exists p. split; auto. eapply U'; eauto. now left.
  - apply IHK. intros l0 Hl0. apply U'. now right.
Qed.
Print Assumptions C103_plots_loop_partial.

(** ** Changing from per unit to SI multiplies every curve by its base and changes
    nothing else. *)
Theorem C103_units :
  forall s pu ty ls time cs,
  ps_loop s = false -> ps_t s = Some time -> (2 <= List.length time)%nat -> shows ty (ps_alone s) ls ->
  (forall k, uses ls k -> exists l, ps_attr s k = Some l /\ List.length l = List.length time) ->
  plot s pu ty = Ok cs ->
  forall c l p, In c cs -> cv_label c = l -> In (l, p) promises -> keeps (ps_attr s) pu p (cv_y c).
Proof.
  intros s pu ty ls time cs Hl Ht Hn Hs U Hp c l p Hc El HI.
  destruct (C103_plots_batch_partial s pu ty ls time Hl Ht Hn Hs U) as (cs' & E & _ & F).
  assert (cs' = cs) by congruence. subst cs'. rewrite Forall_forall in F. destruct (F c Hc) as (_ & _ & p' & I' & K).
  assert (p' = p); [|subst; auto]. rewrite El in I'. clear -I' HI.
  assert (ND : forall l (p q : promise), In (l, p) promises -> In (l, q) promises -> p = q).
  { assert (G : forall (L : list (string * promise)), NoDup (map fst L) -> forall l p q, In (l, p) L -> In (l, q) L -> p = q).
    { induction L as [|[a b] L IH]; intros ND l0 p0 q0 H1 H2; [destruct H1|]. inversion ND; subst. cbn in *.
      destruct H1 as [H1|H1], H2 as [H2|H2]; try congruence.
      - assert (a = l0) by congruence. subst. exfalso. apply H3. apply in_map_iff. exists (l0, q0). auto.
      - assert (a = l0) by congruence. subst. exfalso. apply H3. apply in_map_iff. exists (l0, p0). auto.
      - eapply IH; eauto. }
    apply G. cbn. repeat (constructor; [cbn; intuition discriminate|]). constructor. }
  eapply ND; eauto.
Qed.
Print Assumptions C103_units.

(** ** Refusals *)
Theorem C103_unknown_or_unavailable :
  forall s pu ty,
  (~ In ty available -> plot s pu ty = Raise ValueError) /\
  (ps_loop s = false -> ps_t s <> None -> ps_alone s = false -> In ty ["voltage_HV"; "phase_angle"; "frequency"] ->
   plot s pu ty = Raise ValueError).
Proof.
  intros s pu ty. split.
  - intros N. unfold plot, group. replace (existsb _ available) with false; [reflexivity|]. symmetry. apply not_true_is_false.
    intros E. apply existsb_exists in E as (x & Hx & Ex). apply String.eqb_eq in Ex. now subst.
  - intros Hl Ht Ha Hin. unfold plot, group. rewrite Hl. cbn [bindR]. destruct (ps_t s); [|congruence].
    repeat (destruct Hin as [<-|Hin]; [cbn [bindR]; unfold branch; rewrite Ha; reflexivity|]). destruct Hin.
Qed.
Print Assumptions C103_unknown_or_unavailable.

(** ** Refuted: "every advertised plot type can be drawn and shows every phase" *)
(** No code assigns vdg_t, so the plot "voltage" always fails; three advertised
    types have no branch; "power" and "active_power" fail for every DER fed with
    measured voltages because two labels have no series; whatever the model type,
    "voltage_Vpcclv_all_phases" and "duty_cycle" show phase a only. *)
Theorem C103_all_types_refuted :
  forall s pu, ps_loop s = false -> ps_attr s "vdg_t" = None ->
  (exists e, plot s pu "voltage" = Raise e) /\
  (ps_t s <> None -> forall ty, In ty ["reactive_power_Q_PCC_smoothed"; "voltage_HV_imbalance"; "voltage_Vpcclv_smoothed"] ->
     In ty available /\ plot s pu ty = Raise UnboundLocalError) /\
  (ps_alone s = false -> forall ty, In ty ["power"; "active_power"] -> exists e, plot s pu ty = Raise e) /\
  (forall cs ty, In ty ["voltage_Vpcclv_all_phases"; "duty_cycle"] -> plot s pu ty = Ok cs -> List.length cs = 1%nat).
Proof.
  intros s pu Hl Hv.
  assert (T : String.eqb (class_name (ps_type s)) "SolarPV_DER_ThreePhase" = false) by (destruct (ps_type s); reflexivity).
  unfold plot, group. rewrite Hl. cbn [bindR]. destruct (ps_t s) as [time|].
  2:{ split; [eexists; reflexivity|]. split; [congruence|]. split.
      - intros _ ty [<-|[<-|[]]]; eexists; reflexivity.
      - intros cs ty [<-|[<-|[]]] H; discriminate H. }
  cbn [bindR].
  split; [|split; [|split]].
  - unfold branch. change (negb (existsb (String.eqb "voltage") available)) with false.
    change ("voltage" =? "voltage")%string with true. cbv iota zeta. cbn [bindR fst snd app collect].
    destruct (qval s pu (QRe "Vdc_t" MV)); cbn [bindR]; [|eauto].
    destruct (qval s pu (QRe "Vtrms_t" MV)); cbn [bindR]; [|eauto].
    destruct (qval s pu (QRe "Vrms_t" MV)); cbn [bindR]; [|eauto].
    assert (qval s pu (QRe "vdg_t" MV) = Raise AttributeError) as -> by (cbn; unfold aval; now rewrite Hv).
    eexists; reflexivity.
  - intros _ ty H. split; [repeat (destruct H as [<-|H]; [cbn; tauto|]); destruct H|].
    repeat (destruct H as [<-|H]; [reflexivity|]). destruct H.
  - intros Ha ty H.
    assert (G : forall qs ls, List.length qs <> List.length ls -> exists e,
      bindR (bindR (collect (qval s pu) qs) (fun vs => if sizes_ok (List.length time) vs then Ok (time, vs, ls) else Raise AssertionError))
        (fun '(t, vs, ls) => plot_multiple (repeat t (List.length vs)) vs ls) = Raise e).
    { intros qs ls N. destruct (collect (qval s pu) qs) as [vs|e] eqn:E; cbn [bindR]; [|eauto].
      assert (L : List.length vs = List.length qs).
      { clear -E. revert vs E. induction qs as [|q qs IH]; intros vs E; cbn in E; [injection E as <-; reflexivity|].
        destruct (qval s pu q); [|discriminate]. cbn in E. destruct (collect _ qs) eqn:C; [|discriminate]. cbn in E.
        injection E as <-. cbn. f_equal. now apply IH. }
      destruct (sizes_ok _ _); cbn [bindR]; [|eauto]. unfold plot_multiple. rewrite repeat_length, Nat.eqb_refl. cbn [andb].
      rewrite (proj2 (Nat.eqb_neq _ _)) by congruence. eauto. }
    unfold branch; destruct H as [<-|[<-|[]]]; rewrite Ha; apply G; cbn; discriminate.
  - assert (G : forall q l cs, bindR (bindR (collect (qval s pu) [q]) (fun vs => if sizes_ok (List.length time) vs then Ok (time, vs, [l]) else Raise AssertionError))
        (fun '(t, vs, ls) => plot_multiple (repeat t (List.length vs)) vs ls) = Ok cs -> List.length cs = 1%nat).
    { intros q l cs E. cbn [collect] in E. destruct (qval s pu q); cbn [bindR] in E; [|discriminate].
      destruct (sizes_ok _ _); cbn [bindR] in E; [|discriminate]. cbn in E. injection E as <-. reflexivity. }
    intros cs ty H E. unfold branch in E. rewrite T in E. destruct H as [<-|[<-|[]]]; eapply G; exact E.
Qed.
Print Assumptions C103_all_types_refuted.

(** In loop mode the grid-side series cover the last interval only, while the time
    axis covers all of them: after two or more intervals of two or more points
    every plot that needs them fails, for every simulation. *)
Definition joined_length (ns : list nat) : nat := fold_right (fun n acc => (n - 1) + acc)%nat 1%nat ns.
Lemma joined_ge ns : Forall (fun n => (2 <= n)%nat) ns -> (joined_length ns >= 1 + List.length ns)%nat.
Proof. unfold joined_length. induction 1; cbn [fold_right List.length]; lia. Qed.
Lemma joined_app a b : joined_length (a ++ [b]) = (joined_length a + (b - 1))%nat.
Proof. unfold joined_length. induction a; cbn [fold_right app]; [lia|]. rewrite IHa. lia. Qed.
Ltac exists_b a u := eexists; exists a, u; split; [reflexivity|]; split; [cbn; tauto|cbn; tauto].
Theorem C103_loop_mode_refuted :
  forall s pu time (ns : list nat) last ty,
  ps_loop s = true -> ps_alone s = true -> ps_st s = Some time ->
  ns <> [] -> Forall (fun n => (2 <= n)%nat) ns -> List.length time = joined_length (ns ++ [last]) -> (2 <= last)%nat ->
  (forall k, In k ["Vhvrms_t"; "Vgrms_t"; "S_load1_t"; "S_G_t"; "wgrid_t"; "we_t"] ->
     exists l, ps_attr s k = Some l /\ List.length l = last) ->
  In ty ["power"; "active_power"; "reactive_power"; "voltage_HV"; "frequency"] ->
  exists e, plot s pu ty = Raise e.
Proof.
  intros s pu time ns last ty Hl Ha Ht Hns HF HL H2 HA Hty.
  assert (NE : List.length time <> last).
  { rewrite HL, joined_app. pose proof (joined_ge ns HF). destruct ns; [congruence|]. cbn [List.length] in H. lia. }
  unfold plot, group. rewrite Hl.
  replace (existsb (String.eqb ty) available) with true
    by (symmetry; repeat (destruct Hty as [<-|Hty]; [reflexivity|]); destruct Hty).
  cbn [negb]. unfold inverted. rewrite Ht.
  destruct (forallb _ _); cbn [bindR]; [|eauto].
  set (s1 := PSim _ _ _ _ _ _ _).
  assert (M : forall k, In k ["Vhvrms_t"; "Vgrms_t"; "S_load1_t"; "S_G_t"; "wgrid_t"; "we_t"] ->
    exists l, ps_attr s1 k = Some l /\ List.length l = last).
  { intros k Hk. destruct (HA k Hk) as (l & El & Ll). exists l. split; auto. cbn [ps_attr s1].
    assert (existsb (String.eqb k) (invert_list (ps_type s)) = false) as ->; auto.
    clear -Hk. destruct (ps_type s); repeat (destruct Hk as [<-|Hk]; [reflexivity|]); destruct Hk. }
  assert (B : exists b a u, branch s1 ty = Ok b /\ (In (QRe a u) (fst b) \/ In (QIm a u) (fst b)) /\
    In a ["Vhvrms_t"; "Vgrms_t"; "S_load1_t"; "S_G_t"; "wgrid_t"; "we_t"]).
  { unfold branch, s1. cbn [ps_alone]. rewrite Ha.
    repeat (destruct Hty as [<-|Hty]); [..|destruct Hty];
      [exists_b "S_load1_t" MS|exists_b "S_load1_t" MS|exists_b "S_load1_t" MS|exists_b "Vhvrms_t" MV|exists_b "wgrid_t" M1]. }
  destruct B as (b & a & u & B & HIn & Hk). cbn [ps_t s1 bindR]. rewrite B. cbn [bindR].
  destruct (collect (qval s1 pu) (fst b)) as [vs|e] eqn:C; cbn [bindR]; [|eauto].
  destruct (M a Hk) as (l & El & Ll).
  assert (Z : exists v, In v vs /\ List.length v = last).
  { assert (G : forall qs vs q, collect (qval s1 pu) qs = Ok vs -> In q qs -> exists v, qval s1 pu q = Ok v /\ In v vs).
    { clear. induction qs as [|x qs IH]; intros vs q C H; [destruct H|]. cbn in C.
      destruct (qval s1 pu x) as [y|] eqn:E; [|discriminate]. cbn in C. destruct (collect _ qs) as [ys|] eqn:D; [|discriminate].
      cbn in C. injection C as <-. destruct H as [->|H]; [exists y; split; auto; now left|].
      destruct (IH ys q eq_refl H) as (v & Hv & Iv). exists v. split; auto. now right. }
    destruct HIn as [HIn|HIn]; destruct (G _ _ _ C HIn) as (v & Hv & Iv); exists v; (split; [auto|]);
    cbn [qval] in Hv; unfold aval in Hv; rewrite El in Hv; cbn [bindR] in Hv; injection Hv as <-; now rewrite map_length. }
  destruct Z as (v & Iv & Lv).
  assert (sizes_ok (List.length time) vs = false) as ->.
  { apply not_true_is_false. intros S. unfold sizes_ok in S. rewrite forallb_forall in S. specialize (S v Iv).
    apply andb_true_iff in S as [S _]. apply Nat.eqb_eq in S. congruence. }
  cbn [bindR]. eauto.
Qed.
Print Assumptions C103_loop_mode_refuted.

(** ** Comparison with external data *)
Theorem C103_compare_external :
  forall s pu et ev el ty cs,
  compare s pu et ev el ty = Ok cs -> exists cs0, plot s pu ty = Ok cs0 /\ cs = cs0 ++ curves et ev el /\
  List.length ev = List.length el /\ List.length et = List.length ev.
Proof.
  intros s pu et ev el ty cs H. unfold compare in H. destruct (Nat.eqb (List.length ev) (List.length el)) eqn:E; [|discriminate].
  apply Nat.eqb_eq in E. unfold plot. destruct (group s pu ty) as [[[t vs] ls]|]; cbn [bindR] in *; [|discriminate].
  unfold plot_multiple in *. rewrite !app_length, repeat_length in *.
  destruct (_ && _)%bool eqn:A; [|discriminate]. apply andb_true_iff in A as [A B]. apply Nat.eqb_eq in A, B.
  assert (cs = curves (repeat t (List.length vs) ++ et) (vs ++ ev) (ls ++ el)) by congruence. subst cs. clear H.
  assert (Lt : List.length et = List.length ev) by lia. assert (Lv : List.length vs = List.length ls) by lia.
  rewrite Nat.eqb_refl, Lv, Nat.eqb_refl. cbn [andb]. eexists. split; [reflexivity|]. split; auto.
  rewrite <- Lv. clear -Lv. revert ls Lv. induction vs as [|v vs IH]; intros [|l ls] L; cbn in L; try discriminate; [reflexivity|].
  cbn. f_equal. apply IH. lia.
Qed.
Print Assumptions C103_compare_external.

(** ** A concrete case *)
Definition ex_plot (alone loop : bool) (n : nat) : psim :=
  PSim MThree alone loop (Some [0; 1; 2]) (Some [0; 1; 2])
    (fun k => if String.eqb k "vdg_t" then None else Some (repeat (1#2, 1#4) n)) (fun _ => Some (repeat (1#2, 1#4) 3)).
Example C103_hypotheses_met :
  plot (ex_plot true false 3) false "voltage_LV" =
    Ok [Curve "$v^{inv}_{rms}$" [0; 1; 2] (repeat (500 * (1#2)) 3); Curve "$v^{PCC-LV}_{rms}$" [0; 1; 2] (repeat (500 * (1#2)) 3)] /\
  shows "power" true ["$P^{PV}_{DC}$"; "$P^{inv}_{AC}$"; "$Q^{inv}$"; "$P^{PCC-LV}_{AC}$"; "$Q^{PCC-LV}$"; "$P^{load1}_{AC}$"; "$P^{G}_{AC}$"] /\
  is_ok (plot (ex_plot true false 3) true "power") = true /\
  plot (ex_plot false false 3) true "power" = Raise AssertionError /\
  plot (ex_plot true false 3) true "voltage" = Raise AttributeError /\
  is_ok (plot (ex_plot false true 2) true "voltage_LV") = true /\
  plot (ex_plot true true 2) true "voltage_HV" = Raise AssertionError /\
  joined_length [2; 2]%nat = 3%nat.
Proof. repeat split; try (vm_compute; reflexivity). unfold shows, table. cbn [app In]. auto. Qed.
Example C103_loop_hypotheses_met :
  shows "voltage_LV" false ["$v^{inv}_{rms}$"; "$v^{PCC-LV}_{rms}$"] /\
  (forall k, uses ["$v^{inv}_{rms}$"; "$v^{PCC-LV}_{rms}$"] k -> In k (invert_list MThree)) /\
  uses ["$v^{inv}_{rms}$"; "$v^{PCC-LV}_{rms}$"] "Vrms_t".
Proof.
  split; [unfold shows, table; cbn [app In both]; tauto|]. split.
  - intros k (l & p & Hl & Hp & Hk). destruct Hl as [<-|[<-|[]]]; cbn [promises In] in Hp;
    repeat (destruct Hp as [Hp|Hp]; [try discriminate Hp; injection Hp as <-; destruct Hk as [<-|[]]; cbn; tauto|]); destruct Hp.
  - exists "$v^{PCC-LV}_{rms}$", (RePart "Vrms_t" Volt). cbn. tauto.
Qed.
