(** Lemmas about the ride-through logic. *)
From Verif Require Import Base EventsModel VdcModel RTModel RTSpec.

(** * One zone as an automaton on samples *)
(** [inz]: sample beyond the threshold; [outz]: sample on the safe side *)
Definition gz (inz outz : bool) (t : Q) (z : zone) : zone :=
  if (inz && negb (z_breach z))%bool then
    if qeq (z_start z) 0 then set_start z t
    else if qle (t - z_start z) (z_t z) then z
    else set_breach z
  else if outz then if qlt 0 (z_start z) then set_start z 0 else z
  else z.

(** the momentary cessation flag produced by one zone *)
Definition gmc (inz outz : bool) (t : Q) (z : zone) (mc : bool) : bool :=
  if (inz && negb (z_breach z))%bool then
    if qeq (z_start z) 0 then mc
    else if qle (t - z_start z) (z_t z) then
      if (is_cessation (z_mode z) && qle (z_tmin z) (t - z_start z))%bool then true else mc
    else mc
  else if outz then if qlt 0 (z_start z) then false else mc
  else mc.

Definition lvz vref V t z := gz (qlt V (z_V z * vref)) (qlt (z_V z * vref) V) t z.
Definition hvz vref V t z := gz (qlt (z_V z * vref) V) (qlt V (z_V z * vref)) t z.

Lemma lv_zone_eq vref V t z trip mc :
  lv_zone vref V t z trip mc =
  (lvz vref V t z, (trip || (z_breach (lvz vref V t z) && negb (z_breach z)))%bool,
   gmc (qlt V (z_V z * vref)) (qlt (z_V z * vref) V) t z mc).
Proof.
  unfold lv_zone, lvz, gz, gmc. destruct (qlt V (z_V z * vref)) eqn:E1; cbn [andb].
  - destruct (z_breach z) eqn:Eb; cbn [negb].
    + destruct (qlt (z_V z * vref) V); [destruct (qlt 0 (z_start z))|];
        cbn [z_breach set_start]; rewrite ?Eb, ?andb_false_r, ?orb_false_r; reflexivity.
    + destruct (qeq (z_start z) 0) eqn:E2; [cbn; rewrite Eb, orb_false_r; reflexivity|].
      destruct (qle (t - z_start z) (z_t z)) eqn:E3.
      * rewrite Eb. cbn [negb andb]. rewrite orb_false_r.
        destruct (is_cessation (z_mode z)); cbn [andb]; [|reflexivity].
        destruct mc; cbn [negb]; destruct (qle (z_tmin z) (t - z_start z)); reflexivity.
      * assert (E4 : qle (z_t z) (t - z_start z) = true) by (apply qle_iff; qb; lra).
        rewrite E4. cbn. rewrite orb_true_r. reflexivity.
  - destruct (qlt (z_V z * vref) V); [destruct (qlt 0 (z_start z))|];
      cbn [z_breach set_start]; rewrite ?andb_negb_r, ?orb_false_r; reflexivity.
Qed.

Lemma hv_zone_eq vref V t z trip mc :
  hv_zone vref V t z trip mc =
  (hvz vref V t z, (trip || (z_breach (hvz vref V t z) && negb (z_breach z)))%bool,
   gmc (qlt (z_V z * vref) V) (qlt V (z_V z * vref)) t z mc).
Proof.
  unfold hv_zone, hvz, gz, gmc. destruct (qlt (z_V z * vref) V) eqn:E1; cbn [andb].
  - destruct (z_breach z) eqn:Eb; cbn [negb].
    + destruct (qlt V (z_V z * vref)); [destruct (qlt 0 (z_start z))|];
        cbn [z_breach set_start]; rewrite ?Eb, ?andb_false_r, ?orb_false_r; reflexivity.
    + destruct (qeq (z_start z) 0) eqn:E2; [cbn; rewrite Eb, orb_false_r; reflexivity|].
      destruct (qle (t - z_start z) (z_t z)) eqn:E3.
      * rewrite Eb. cbn [negb andb]. rewrite orb_false_r.
        destruct (is_cessation (z_mode z)); cbn [andb]; [|reflexivity].
        destruct mc; cbn [negb]; destruct (qle (z_tmin z) (t - z_start z)); reflexivity.
      * assert (E4 : qle (z_t z) (t - z_start z) = true) by (apply qle_iff; qb; lra).
        rewrite E4. cbn. rewrite orb_true_r. reflexivity.
  - destruct (qlt V (z_V z * vref)); [destruct (qlt 0 (z_start z))|];
      cbn [z_breach set_start]; rewrite ?andb_negb_r, ?orb_false_r; reflexivity.
Qed.

(** ** the zone loop *)
Section Loop.
  Variable step : zone -> zone.
  Variable mcf : zone -> bool -> bool.
  Variable f : zone -> bool -> bool -> zone * bool * bool.
  Hypothesis Hf : forall z trip mc,
    f z trip mc = (step z, (trip || (z_breach (step z) && negb (z_breach z)))%bool, mcf z mc).
  Hypothesis Hmono : forall z, z_breach z = true -> z_breach (step z) = true.

  Definition mc_fold (zs : list zone) (mc : bool) : bool := fold_left (fun b z => mcf z b) zs mc.

  Lemma zones_loop_eq zs : forall trip mc,
    zones_loop f zs trip mc =
    (map step zs, (trip || existsb (fun z => z_breach (step z) && negb (z_breach z)) zs)%bool, mc_fold zs mc).
  Proof.
    induction zs as [|z zs IH]; intros trip mc; simpl; [rewrite orb_false_r; reflexivity|].
    rewrite Hf, IH. rewrite orb_assoc. reflexivity.
  Qed.

  Lemma breach_any zs :
    (existsb z_breach zs || existsb (fun z => z_breach (step z) && negb (z_breach z)) zs)%bool
    = existsb z_breach (map step zs).
  Proof.
    induction zs as [|z zs IH]; simpl; auto. rewrite <- IH.
    pose proof (Hmono z) as Hm.
    destruct (z_breach z); [rewrite Hm by auto; reflexivity|].
    destruct (z_breach (step z)), (existsb z_breach zs); reflexivity.
  Qed.
End Loop.

Lemma gz_mono inz outz t z : z_breach z = true -> z_breach (gz inz outz t z) = true.
Proof.
  intros H. unfold gz. rewrite H, andb_false_r. destruct outz; auto.
  destruct (qlt 0 (z_start z)); auto.
Qed.

Lemma gz_settings inz outz t z :
  z_V (gz inz outz t z) = z_V z /\ z_t (gz inz outz t z) = z_t z /\
  z_tmin (gz inz outz t z) = z_tmin z /\ z_mode (gz inz outz t z) = z_mode z.
Proof.
  unfold gz. destruct (inz && negb (z_breach z))%bool.
  - destruct (qeq _ _); [auto|]. destruct (qle _ _); auto.
  - destruct outz; auto. destruct (qlt _ _); auto.
Qed.

(** * histories *)
Section History.
  Variables inz outz : Q -> bool.
  Hypothesis Hio : forall V, inz V = true -> outz V = false.

  Definition longer_than (dur : Q) (l : list (Q * Q)) : Prop :=
    exists pre t0 V0 mid t1 V1 post,
      l = pre ++ (t0, V0) :: mid ++ (t1, V1) :: post /\
      inz V0 = true /\ (forall t V, In (t, V) mid -> outz V = false) /\ inz V1 = true /\ dur < t1 - t0.
  Definition since (l : list (Q * Q)) (tau : Q) : Prop :=
    exists pre V0 post, l = pre ++ (tau, V0) :: post /\
      inz V0 = true /\ (forall t V, In (t, V) post -> outz V = false).

  Lemma snoc_inv {A} (l pre post : list A) x y :
    l ++ [x] = pre ++ y :: post ->
    (post = [] /\ y = x /\ pre = l) \/ exists post', post = post' ++ [x] /\ l = pre ++ y :: post'.
  Proof.
    destruct (rev post) as [|w r] eqn:E.
    - assert (post = []) by (rewrite <- (rev_involutive post), E; reflexivity). subst.
      intros H. apply app_inj_tail in H as [-> ->]. auto.
    - assert (Hp : post = rev r ++ [w]) by (rewrite <- (rev_involutive post), E; reflexivity).
      subst post. intros H. rewrite app_comm_cons, app_assoc in H.
      apply app_inj_tail in H as [-> <-]. right. exists (rev r). auto.
  Qed.

  Lemma since_snoc l t V tau :
    since (l ++ [(t, V)]) tau <-> (since l tau /\ outz V = false) \/ (tau = t /\ inz V = true).
  Proof.
    split.
    - intros (pre & V0 & post & E & H1 & H2).
      apply snoc_inv in E as [(-> & E & ->)|(post' & -> & ->)].
      + injection E as -> ->. right. auto.
      + left. split.
        * exists pre, V0, post'. split; auto. split; auto. intros a b Hin. apply (H2 a), in_or_app. auto.
        * apply (H2 t). apply in_or_app. right. left. reflexivity.
    - intros [[(pre & V0 & post & -> & H1 & H2) Ho]|[-> Hi]].
      + exists pre, V0, (post ++ [(t, V)]). rewrite <- app_assoc. split; auto. split; auto.
        intros a b Hin. apply in_app_or in Hin as [Hin|[[= <- <-]|[]]]; eauto.
      + exists l, V, []. split; [auto|]. split; [auto|]. intros a b [].
  Qed.

  Lemma longer_snoc dur l t V :
    longer_than dur (l ++ [(t, V)]) <->
    longer_than dur l \/ (inz V = true /\ exists tau, since l tau /\ dur < t - tau).
  Proof.
    split.
    - intros (pre & t0 & V0 & mid & t1 & V1 & post & E & H1 & H2 & H3 & H4).
      rewrite app_comm_cons, app_assoc in E.
      apply snoc_inv in E as [(-> & E & E2)|(post' & -> & ->)].
      + injection E as -> ->. right. split; auto. exists t0. split; auto.
        subst l. exists pre, V0, mid. auto.
      + left. exists pre, t0, V0, mid, t1, V1, post'. rewrite <- app_assoc. auto.
    - intros [(pre & t0 & V0 & mid & t1 & V1 & post & -> & H1 & H2 & H3 & H4)|[Hi (tau & (pre & V0 & post & -> & H1 & H2) & Hd)]].
      + exists pre, t0, V0, mid, t1, V1, (post ++ [(t, V)]).
        split; [rewrite <- app_assoc; simpl; rewrite <- app_assoc; reflexivity|]. auto.
      + exists pre, tau, V0, post, t, V, []. split; [rewrite <- app_assoc; reflexivity|]. auto.
  Qed.

  Definition zrun (l : list (Q * Q)) (z : zone) : zone :=
    fold_left (fun z s => gz (inz (snd s)) (outz (snd s)) (fst s) z) l z.

  Lemma zrun_snoc l t V z : zrun (l ++ [(t, V)]) z = gz (inz V) (outz V) t (zrun l z).
  Proof. unfold zrun. rewrite fold_left_app. reflexivity. Qed.

  Lemma zrun_settings l : forall z,
    z_V (zrun l z) = z_V z /\ z_t (zrun l z) = z_t z /\ z_tmin (zrun l z) = z_tmin z /\ z_mode (zrun l z) = z_mode z.
  Proof.
    induction l as [|[t V] l IH] using rev_ind; intros z; [simpl; auto|].
    rewrite zrun_snoc. destruct (gz_settings (inz V) (outz V) t (zrun l z)) as (-> & -> & -> & ->). auto.
  Qed.

  (** times positive and strictly increasing *)
  Definition chrono (l : list (Q * Q)) : Prop :=
    forall pre t V post, l = pre ++ (t, V) :: post -> 0 < t /\ forall t' V', In (t', V') pre -> t' < t.
  Lemma chrono_app l x : chrono (l ++ [x]) -> chrono l /\ 0 < fst x /\ forall t' V', In (t', V') l -> t' < fst x.
  Proof.
    intros H. split.
    - intros pre t V post E. apply (H pre t V (post ++ [x])). rewrite E, <- app_assoc. reflexivity.
    - destruct x as [t V]. apply (H l t V []). reflexivity.
  Qed.

  (** what the timer and the breach flag of a zone mean *)
  Lemma zone_history l z0 :
    fresh_zone z0 -> chrono l ->
    let z := zrun l z0 in
    (z_breach z = true <-> longer_than (z_t z0) l) /\
    (z_breach z = true -> z_start z = 0) /\
    (z_breach z = false ->
       (z_start z = 0 /\ forall tau, ~ since l tau) \/
       (0 < z_start z /\ since l (z_start z) /\ forall tau, since l tau -> z_start z <= tau)).
  Proof.
    intros [Hs Hb]. induction l as [|[t V] l IH] using rev_ind; intros Hc z.
    - unfold z; simpl. rewrite Hb. split; [split; [discriminate|]|].
      + intros (pre & t0 & V0 & mid & t1 & V1 & post & E & _).
        destruct pre; discriminate.
      + split; [discriminate|]. intros _. left. split; auto.
        intros tau (pre & V0 & post & E & _). destruct pre; discriminate.
    - apply chrono_app in Hc as (Hc & Ht & Hlt). simpl fst in *. specialize (IH Hc).
      destruct IH as (IH1 & IH2 & IH3). unfold z. rewrite zrun_snoc.
      destruct (zrun_settings l z0) as (Hz1 & Hz2 & _).
      set (y := zrun l z0) in *. clearbody y.
      assert (Hin : forall tau, since l tau -> tau < t).
      { intros tau (pre & V0 & post & -> & _). apply (Hlt tau V0). apply in_or_app. right. left. reflexivity. }
      unfold gz. destruct (z_breach y) eqn:Eb.
      + (* already breached *)
        rewrite andb_false_r.
        assert (Hst : qlt 0 (z_start y) = false) by (apply qlt_false; rewrite (IH2 eq_refl); lra).
        rewrite Hst. assert (Hy : (if outz V then y else y) = y) by (destruct (outz V); auto).
        rewrite Hy, Eb. split; [|split; [auto|discriminate]].
        split; auto. intros _. apply longer_snoc. left. apply IH1. reflexivity.
      + assert (Hnl : ~ longer_than (z_t z0) l) by (rewrite <- IH1; discriminate).
        cbn [negb]. rewrite andb_true_r. destruct (inz V) eqn:Ei.
        * destruct (IH3 eq_refl) as [[H0 Hno]|(Hpos & Hsin & Hmin)].
          -- assert (Eq0 : qeq (z_start y) 0 = true) by (apply qeq_iff; rewrite H0; reflexivity).
             rewrite Eq0. cbn [set_start z_breach z_start]. rewrite Eb. split; [split; [discriminate|]|].
             ++ intros Hl. apply longer_snoc in Hl as [Hl|[_ (tau & Htau & _)]]; [contradiction|].
                destruct (Hno tau Htau).
             ++ split; [discriminate|]. intros _. right. split; auto. split.
                ** apply since_snoc. right. auto.
                ** intros tau Htau. apply since_snoc in Htau as [[Htau _]|[-> _]]; [destruct (Hno tau Htau)|lra].
          -- assert (Eq0 : qeq (z_start y) 0 = false) by (apply qeq_false; lra). rewrite Eq0.
             destruct (qle (t - z_start y) (z_t y)) eqn:El; qb.
             ++ rewrite Eb. split; [split; [discriminate|]|].
                ** intros Hl. apply longer_snoc in Hl as [Hl|[_ (tau & Htau & Hd)]]; [contradiction|].
                   pose proof (Hmin tau Htau). rewrite Hz2 in El. exfalso. lra.
                ** split; [discriminate|]. intros _. right. split; auto. split.
                   --- apply since_snoc. left. auto.
                   --- intros tau Htau. apply since_snoc in Htau as [[Htau _]|[-> _]]; auto.
                       pose proof (Hin _ Hsin). lra.
             ++ cbn [set_breach z_breach z_start]. split; [split; auto; intros _|].
                ** apply longer_snoc. right. split; auto. exists (z_start y). split; auto.
                   rewrite <- Hz2. auto.
                ** split; [auto|discriminate].
        * destruct (outz V) eqn:Eo.
          -- destruct (IH3 eq_refl) as [[H0 Hno]|(Hpos & Hsin & Hmin)].
             ++ assert (Hst : qlt 0 (z_start y) = false) by (apply qlt_false; rewrite H0; lra).
                rewrite Hst, Eb. split; [split; [discriminate|]|].
                ** intros Hl. apply longer_snoc in Hl as [Hl|[Hv _]]; [contradiction|congruence].
                ** split; [discriminate|]. intros _. left. split; auto.
                   intros tau Htau. apply since_snoc in Htau as [[_ Hv]|[_ Hv]]; congruence.
             ++ assert (Hst : qlt 0 (z_start y) = true) by (apply qlt_iff; auto).
                rewrite Hst. cbn [set_start z_breach z_start]. rewrite Eb. split; [split; [discriminate|]|].
                ** intros Hl. apply longer_snoc in Hl as [Hl|[Hv _]]; [contradiction|congruence].
                ** split; [discriminate|]. intros _. left. split; auto.
                   intros tau Htau. apply since_snoc in Htau as [[_ Hv]|[_ Hv]]; congruence.
          -- rewrite Eb. split; [split; [discriminate|]|].
             ++ intros Hl. apply longer_snoc in Hl as [Hl|[Hv _]]; [contradiction|congruence].
             ++ split; [discriminate|]. intros _.
                destruct (IH3 eq_refl) as [[H0 Hno]|(Hpos & Hsin & Hmin)]; [left|right].
                ** split; auto. intros tau Htau. apply since_snoc in Htau as [[Htau _]|[_ Hv]]; [eapply Hno; eauto|congruence].
                ** split; auto. split; [apply since_snoc; auto|].
                   intros tau Htau. apply since_snoc in Htau as [[Htau _]|[_ Hv]]; [auto|congruence].
  Qed.
End History.
