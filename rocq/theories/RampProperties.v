(** Properties C33, C34: the current-reference ramp limiter. *)
From Coq Require Import Qabs.
From Verif Require Import Base RampModel.

(** * Specification
    [new] is reached from [prev] by moving towards [cmd] at rate [g] for [dt]
    seconds and stopping there. *)
Definition moves_towards (g dt prev cmd new : Q) : Prop :=
  Qabs (new - prev) <= g * dt /\
  (prev <= new <= cmd \/ cmd <= new <= prev) /\
  (Qabs (cmd - prev) <= g * dt -> new == cmd) /\
  (g * dt <= Qabs (cmd - prev) -> Qabs (new - prev) == g * dt).

(** evaluation times strictly increasing, starting after [t0] *)
Fixpoint increasing (t0 : Q) (xs : list rin) : Prop :=
  match xs with [] => True | x :: xs' => t0 < i_t x /\ increasing (i_t x) xs' end.
(** time of the last evaluation ([t0] if there is none) *)
Fixpoint last_time (t0 : Q) (xs : list rin) : Q :=
  match xs with [] => t0 | x :: xs' => last_time (i_t x) xs' end.

(** * C33 *)
Lemma py_abs_Qabs a : py_abs a == Qabs a.
Proof.
  destruct (py_abs_spec a) as [[-> H]|[-> H]].
  - rewrite Qabs_pos; lra.
  - rewrite Qabs_neg; lra.
Qed.

Ltac qabs :=
  repeat match goal with
  | |- context [Qabs ?x] => let E := fresh in let H := fresh in
      destruct (Qlt_le_dec x 0) as [H|H];
      [pose proof (Qabs_neg x (Qlt_le_weak _ _ H)) as E | pose proof (Qabs_pos x H) as E];
      let a := fresh "a" in set (a := Qabs x) in *; clearbody a
  | K : context [Qabs ?x] |- _ => let E := fresh in let H := fresh in
      destruct (Qlt_le_dec x 0) as [H|H];
      [pose proof (Qabs_neg x (Qlt_le_weak _ _ H)) as E | pose proof (Qabs_pos x H) as E];
      let a := fresh "a" in set (a := Qabs x) in *; clearbody a
  end.

Lemma comp_actual_spec dt g cmd prev :
  0 < dt -> 0 <= g -> exists new, comp_actual dt g cmd prev = Ok new /\ moves_towards g dt prev cmd new.
Proof.
  intros Hdt Hg. unfold comp_actual.
  assert (E : qeq dt 0 = false) by (apply qeq_false; lra). rewrite E.
  eexists. split; [reflexivity|].
  set (d := cmd - prev).
  assert (Hm : py_min (py_abs d / dt) g * dt == py_abs d /\ py_abs d <= g * dt \/
               py_min (py_abs d / dt) g * dt == g * dt /\ g * dt < py_abs d).
  { destruct (py_min_spec (py_abs d / dt) g) as [[-> H]|[-> H]].
    - left. split; [field; lra|]. assert (K : py_abs d / dt * dt <= g * dt) by (apply Qmult_le_compat_r; lra).
      setoid_replace (py_abs d / dt * dt) with (py_abs d) in K by (field; lra). auto.
    - right. split; [reflexivity|].
      assert (K : g * dt < py_abs d / dt * dt) by (apply Qmult_lt_r; auto).
      setoid_replace (py_abs d / dt * dt) with (py_abs d) in K by (field; lra). auto. }
  assert (Hgd : 0 <= g * dt) by (apply Qmult_le_0_compat; lra).
  set (x := py_min (py_abs d / dt) g * dt) in *. clearbody x.
  unfold moves_towards. set (w := g * dt) in *. clearbody w.
  unfold copysign. destruct (py_abs_spec x) as [[-> Hx]|[-> Hx]];
  destruct (py_abs_spec d) as [[Ed Hd]|[Ed Hd]]; rewrite Ed in Hm; unfold d in *; clear d;
  destruct (qlt (cmd - prev) 0) eqn:F; qb; try (exfalso; lra);
  (destruct Hm as [[Hm1 Hm2]|[Hm1 Hm2]]);
  repeat split; try intros; qabs; try lra; (left + right); split; lra.
Qed.

(** One evaluation at a later time: both components of the reference move
    towards the command at no more than their gradient. *)
Theorem C33_step :
  forall s x, p_limiter s = true -> 0 <= p_gR s -> 0 <= p_gI s -> p_tref s < i_t x ->
  exists s', update_iref_three_phase s x = (s', Ok tt) /\
    p_tref s' = i_t x /\ p_gR s' = p_gR s /\ p_gI s' = p_gI s /\ p_limiter s' = true /\
    moves_towards (p_gR s) (i_t x - p_tref s) (fst (p_ref s)) (fst (i_cmd x)) (fst (p_ref s')) /\
    moves_towards (p_gI s) (i_t x - p_tref s) (snd (p_ref s)) (snd (i_cmd x)) (snd (p_ref s')).
Proof.
  intros s x Hl HR HI Ht. unfold update_iref_three_phase, update_iref. rewrite Hl. cbn [andb].
  unfold get_ramp_limited_iref. assert (E : qlt (p_tref s) (i_t x) = true) by (apply qlt_iff; auto).
  rewrite E. unfold get_iref_actual.
  destruct (comp_actual_spec (i_t x - p_tref s) (p_gR s) (fst (i_cmd x)) (fst (p_ref s))) as (a & -> & Ha); [lra|auto|].
  destruct (comp_actual_spec (i_t x - p_tref s) (p_gI s) (snd (i_cmd x)) (snd (p_ref s))) as (b & -> & Hb); [lra|auto|].
  simpl. eexists. split; [reflexivity|]. simpl. auto 10.
Qed.
Print Assumptions C33_step.

Definition within (g dt prev new : Q) : Prop := Qabs (new - prev) <= g * dt.

(** The three-phase constant-Vdc DER limits in the same way, but only after 0.1 s. *)
Theorem C33_constant_Vdc :
  forall s x, p_limiter s = true -> 0 <= p_gR s -> 0 <= p_gI s -> p_tref s < i_t x ->
  exists s', update_iref_three_phase_constant_Vdc s x = (s', Ok tt) /\
    p_tref s' = i_t x /\ p_gR s' = p_gR s /\ p_gI s' = p_gI s /\ p_limiter s' = true /\
    (i_t x <= 1/10 -> p_ref s' = i_cmd x) /\
    (1/10 < i_t x ->
     moves_towards (p_gR s) (i_t x - p_tref s) (fst (p_ref s)) (fst (i_cmd x)) (fst (p_ref s')) /\
     moves_towards (p_gI s) (i_t x - p_tref s) (snd (p_ref s)) (snd (i_cmd x)) (snd (p_ref s'))).
Proof.
  intros s x Hl HR HI Ht. destruct (C33_step s x Hl HR HI Ht) as (s1 & E & A & B & C & D & F & G).
  unfold update_iref_three_phase_constant_Vdc, update_iref_three_phase, update_iref in *. rewrite Hl in *. cbn [andb] in *.
  destruct (qlt (1#10) (i_t x)) eqn:Q.
  - exists s1. split; [exact E|]. apply qlt_iff in Q. repeat (split; [assumption|]). split; [intros K; exfalso; change (1/10) with (1#10) in K; lra|auto].
  - eexists. split; [reflexivity|]. cbn [p_tref p_gR p_gI p_limiter p_ref]. apply qlt_false in Q.
    do 3 (split; [reflexivity|]). split; [first [exact Hl|reflexivity]|]. split; [reflexivity|]. intros K. exfalso. change (1/10) with (1#10) in K. lra.
Qed.
Print Assumptions C33_constant_Vdc.

(** Over any run at increasing times and with any commands, no exception is
    raised and each component stays within gradient*elapsed of where it was. *)
Theorem C33_rate_over_history :
  forall xs s, p_limiter s = true -> 0 <= p_gR s -> 0 <= p_gI s -> increasing (p_tref s) xs ->
  exists s', ramp_run update_iref_three_phase s xs = (s', Ok tt) /\
    p_tref s' = last_time (p_tref s) xs /\
    within (p_gR s) (last_time (p_tref s) xs - p_tref s) (fst (p_ref s)) (fst (p_ref s')) /\
    within (p_gI s) (last_time (p_tref s) xs - p_tref s) (snd (p_ref s)) (snd (p_ref s')).
Proof.
  induction xs as [|x xs IH]; intros s Hl HR HI Hi.
  - exists s. simpl. unfold within.
    assert (A : forall a g, Qabs (a - a) <= g * (p_tref s - p_tref s)).
    { intros a g. setoid_replace (a - a) with 0 by ring. setoid_replace (g * (p_tref s - p_tref s)) with 0 by ring.
      apply Qle_refl. }
    repeat split; auto.
  - destruct Hi as [Ht Hi]. destruct (C33_step s x Hl HR HI Ht) as (s1 & E & T & GR & GI & L & A & B).
    cbn [ramp_run]. rewrite E. destruct (IH s1) as (s' & R & T' & A' & B'); try congruence.
    exists s'. split; [exact R|]. cbn [last_time]. rewrite T in *. split; [auto|].
    rewrite GR in A'. rewrite GI in B'. unfold within in *.
    apply proj1 in A. apply proj1 in B.
    assert (K : forall g a b c, Qabs (b - a) <= g * (i_t x - p_tref s) ->
              Qabs (c - b) <= g * (last_time (i_t x) xs - i_t x) ->
              Qabs (c - a) <= g * (last_time (i_t x) xs - p_tref s)).
    { intros g a b c H1 H2. setoid_replace (c - a) with ((b - a) + (c - b)) by ring.
      eapply Qle_trans; [apply Qabs_triangle|].
      setoid_replace (g * (last_time (i_t x) xs - p_tref s)) with
        (g * (i_t x - p_tref s) + g * (last_time (i_t x) xs - i_t x)) by ring.
      apply Qplus_le_compat; auto. }
    split; eapply K; eauto.
Qed.
Print Assumptions C33_rate_over_history.

(** With a constant command, the command is reached exactly once the elapsed
    time times the gradient covers the initial gap, and is kept from then on. *)
Definition cmd_const (c : cplx) (xs : list rin) : Prop := forall x, In x xs -> i_cmd x = c.

Lemma towards_gap g dt p c n :
  moves_towards g dt p c n -> Qabs (c - n) == Qmax 0 (Qabs (c - p) - g * dt).
Proof.
  intros (H1 & H2 & H3 & H4). set (w := g * dt) in *. clearbody w.
  destruct (Q.max_spec 0 (Qabs (c - p) - w)) as [[M E]|[M E]]; rewrite E; clear E.
  - assert (K : Qabs (n - p) == w) by (apply H4; lra). clear H1 H3 H4. qabs; lra.
  - assert (K : n == c) by (apply H3; lra). rewrite K. setoid_replace (c - c) with 0 by ring. reflexivity.
Qed.

Theorem C33_reaches_constant_command :
  forall c xs s, p_limiter s = true -> 0 <= p_gR s -> 0 <= p_gI s -> increasing (p_tref s) xs ->
  cmd_const c xs ->
  exists s', ramp_run update_iref_three_phase s xs = (s', Ok tt) /\
    (xs <> [] -> Qabs (fst c - fst (p_ref s)) <= p_gR s * (last_time (p_tref s) xs - p_tref s) ->
      fst (p_ref s') == fst c) /\
    (xs <> [] -> Qabs (snd c - snd (p_ref s)) <= p_gI s * (last_time (p_tref s) xs - p_tref s) ->
      snd (p_ref s') == snd c).
Proof.
  intros c xs s Hl HR HI Hi Hc.
  assert (K : exists s', ramp_run update_iref_three_phase s xs = (s', Ok tt) /\
     Qabs (fst c - fst (p_ref s')) == Qmax 0 (Qabs (fst c - fst (p_ref s)) - p_gR s * (last_time (p_tref s) xs - p_tref s)) /\
     Qabs (snd c - snd (p_ref s')) == Qmax 0 (Qabs (snd c - snd (p_ref s)) - p_gI s * (last_time (p_tref s) xs - p_tref s)) /\
     p_tref s <= last_time (p_tref s) xs).
  { revert s Hl HR HI Hi Hc. induction xs as [|x xs IH]; intros s Hl HR HI Hi Hc.
    - exists s. split; [reflexivity|]. cbn [last_time].
      assert (A : forall a g, Qabs a == Qmax 0 (Qabs a - g * (p_tref s - p_tref s))).
      { intros a g. setoid_replace (Qabs a - g * (p_tref s - p_tref s)) with (Qabs a) by ring.
        symmetry. apply Q.max_r. apply Qabs_nonneg. }
      split; [apply A|]. split; [apply A|]. apply Qle_refl.
    - destruct Hi as [Ht Hi]. destruct (C33_step s x Hl HR HI Ht) as (s1 & E & T & GR & GI & L & A & B).
      cbn [ramp_run]. rewrite E.
      destruct (IH s1) as (s' & R & A' & B' & T'); try congruence.
      { intros y Hy. apply Hc. right; auto. }
      exists s'. split; [exact R|]. cbn [last_time]. rewrite T in *.
      apply towards_gap in A. apply towards_gap in B.
      rewrite (Hc x (or_introl eq_refl)) in A, B.
      rewrite GR in A'. rewrite GI in B'.
      assert (M : forall g a b d, 0 <= g -> Qabs b == Qmax 0 (Qabs a - g * (i_t x - p_tref s)) ->
               Qabs d == Qmax 0 (Qabs b - g * (last_time (i_t x) xs - i_t x)) ->
               Qabs d == Qmax 0 (Qabs a - g * (last_time (i_t x) xs - p_tref s))).
      { intros g a b d Hg H1 H2.
        assert (G1 : 0 <= g * (i_t x - p_tref s)) by (apply Qmult_le_0_compat; lra).
        assert (G2 : 0 <= g * (last_time (i_t x) xs - i_t x)) by (apply Qmult_le_0_compat; lra).
        setoid_replace (g * (last_time (i_t x) xs - p_tref s)) with
          (g * (i_t x - p_tref s) + g * (last_time (i_t x) xs - i_t x)) by ring.
        set (u := g * (i_t x - p_tref s)) in *. set (v := g * (last_time (i_t x) xs - i_t x)) in *.
        clearbody u v. set (aa := Qabs a) in *. set (bb := Qabs b) in *. set (dd := Qabs d) in *. clearbody aa bb dd.
        destruct (Q.max_spec 0 (aa - u)) as [[M1 E1]|[M1 E1]]; rewrite E1 in H1;
        destruct (Q.max_spec 0 (bb - v)) as [[M2 E2]|[M2 E2]]; rewrite E2 in H2;
        destruct (Q.max_spec 0 (aa - (u + v))) as [[M3 E3]|[M3 E3]]; rewrite E3; lra. }
      split; [exact (M _ _ _ _ HR A A')|]. split; [exact (M _ _ _ _ HI B B')|lra]. }
  destruct K as (s' & R & A & B & T). exists s'. split; [exact R|].
  assert (M : forall a b w, Qabs (b - a) == Qmax 0 w -> w <= 0 -> a == b).
  { intros a b w H1 H2. rewrite Q.max_l in H1 by auto.
    assert (K : Qabs (b - a) <= 0) by lra. apply Qabs_Qle_condition in K. lra. }
  split; intros _ H; eapply M; eauto; lra.
Qed.
Print Assumptions C33_reaches_constant_command.

Definition rx t a b ia := Rin t (a, b) ia.
Example C33_hypotheses_met :
  let s := Ramp 0 (0, 0) 1 2 true in
  let xs := [rx (1#2) 1 (-1) (0,0); rx 1 1 (-1) (0,0); rx (3#2) 1 (-1) (0,0)] in
  increasing (p_tref s) xs /\ cmd_const (1, -1) xs /\
  Qabs (1 - 0) <= 1 * (last_time 0 xs - 0) /\
  (let s1 := fst (ramp_run update_iref_three_phase s (firstn 1 xs)) in
     fst (p_ref s1) == 1#2 /\ snd (p_ref s1) == -1).
Proof.
  split; [vm_compute; auto|]. split; [|vm_compute; split; [discriminate|split; reflexivity]].
  intros x [<-|[<-|[<-|[]]]]; reflexivity.
Qed.

(** * C34: backward solver steps and single-phase DERs
    As stated (rate limit between any two consecutive evaluations, for every
    time sequence, all DER types) the property is false. *)
Definition C34_claim (step : ramp -> rin -> ramp * res unit) : Prop :=
  forall xs x s s1 s2, p_limiter s = true -> 0 <= p_gR s -> 0 <= p_gI s -> p_tref s = 0 ->
  (forall y, In y (x :: xs) -> 0 <= i_t y) ->
  ramp_run step s (xs ++ [x]) = (s2, Ok tt) -> ramp_run step s xs = (s1, Ok tt) ->
  within (p_gR s) (Qabs (i_t x - last_time 0 xs)) (fst (p_ref s1)) (fst (p_ref s2)).

(** Three-phase: one backward step (1 s to 0.999 s) jumps to the full command. *)
Theorem C34_three_phase_refuted : ~ C34_claim update_iref_three_phase.
Proof.
  intros H. specialize (H [rx 1 0 0 (0,0)] (rx (999#1000) 10 0 (0,0)) (Ramp 0 (0,0) 1 1 true)
    (Ramp 1 (0,0) 1 1 true)).
  edestruct H as [].
  - reflexivity.
  - vm_compute; discriminate.
  - vm_compute; discriminate.
  - reflexivity.
  - intros y [<-|[<-|[]]]; vm_compute; discriminate.
  - vm_compute. reflexivity.
  - vm_compute. reflexivity.
  - vm_compute. reflexivity.
Qed.
Print Assumptions C34_three_phase_refuted.

(** Single-phase: t_iref stays 0, so the allowance grows with absolute time; at
    t = 100 s a 1 ms step may change the reference by 100*gradient. *)
Theorem C34_single_phase_refuted : ~ C34_claim update_iref_single_phase.
Proof.
  intros H. specialize (H [rx 100 0 0 (0,0)] (rx (100001#1000) 10 0 (0,0)) (Ramp 0 (0,0) 1 1 true)
    (fst (ramp_run update_iref_single_phase (Ramp 0 (0,0) 1 1 true) [rx 100 0 0 (0,0)]))).
  edestruct H as [].
  - reflexivity.
  - vm_compute; discriminate.
  - vm_compute; discriminate.
  - reflexivity.
  - intros y [<-|[<-|[]]]; vm_compute; discriminate.
  - vm_compute. reflexivity.
  - vm_compute. reflexivity.
  - vm_compute. reflexivity.
Qed.
Print Assumptions C34_single_phase_refuted.

(** What does hold without any assumption on the order of times: re-evaluating
    the same time leaves the reference alone, a backward step is no crash, and
    lands on the command itself; ... *)
Lemma comp_actual_back dt g cmd prev : dt < 0 -> 0 <= g ->
  exists new, comp_actual dt g cmd prev = Ok new /\ new == cmd.
Proof.
  intros Hdt Hg. unfold comp_actual.
  assert (E : qeq dt 0 = false) by (apply qeq_false; lra). rewrite E. eexists. split; [reflexivity|].
  set (d := cmd - prev).
  assert (Hd : 0 <= py_abs d) by (destruct (py_abs_spec d) as [[-> ?]|[-> ?]]; lra).
  assert (Hm : py_min (py_abs d / dt) g * dt == py_abs d).
  { destruct (py_min_spec (py_abs d / dt) g) as [[-> H]|[-> H]]; [field; lra|]. exfalso.
    assert (K : 0 < (py_abs d / dt) * (- dt)).
    { apply Qmult_lt_0_compat; lra. }
    setoid_replace ((py_abs d / dt) * (- dt)) with (- py_abs d) in K by (field; lra). lra. }
  set (x := py_min (py_abs d / dt) g * dt) in *. clearbody x. unfold copysign.
  destruct (py_abs_spec x) as [[-> Hx]|[-> Hx]]; destruct (py_abs_spec d) as [[Ed Hd']|[Ed Hd']]; rewrite Ed in *;
  destruct (qlt d 0) eqn:F; qb; unfold d in *; lra.
Qed.

Theorem C34_any_time_partial :
  forall sets from s x, 0 <= p_gR s -> 0 <= p_gI s -> exists s',
  update_iref sets from s x = (s', Ok tt) /\
  (p_limiter s = true -> from = None -> i_t x == p_tref s -> p_ref s' = p_ref s) /\
  (p_limiter s = true -> from = None -> i_t x < p_tref s ->
     fst (p_ref s') == fst (i_cmd x) /\ snd (p_ref s') == snd (i_cmd x)).
Proof.
  intros sets from s x HR HI. unfold update_iref.
  set (act := match from with None => true | Some t0 => qlt t0 (i_t x) end).
  assert (Ha : from = None -> act = true) by (intros ->; reflexivity). clearbody act.
  destruct (p_limiter s && act)%bool eqn:El.
  2:{ eexists. split; [reflexivity|]. split; intros L F _; rewrite L, (Ha F) in El; discriminate. }
  unfold get_ramp_limited_iref.
  destruct (qlt (p_tref s) (i_t x)) eqn:E1; [|destruct (qlt (i_t x) (p_tref s)) eqn:E2]; qb.
  - unfold get_iref_actual.
    destruct (comp_actual_spec (i_t x - p_tref s) (p_gR s) (fst (i_cmd x)) (fst (p_ref s))) as (a & -> & _); [lra|auto|].
    destruct (comp_actual_spec (i_t x - p_tref s) (p_gI s) (snd (i_cmd x)) (snd (p_ref s))) as (b & -> & _); [lra|auto|].
    simpl. eexists. split; [reflexivity|]. split; intros; exfalso; lra.
  - unfold get_iref_actual.
    destruct (comp_actual_back (i_t x - p_tref s) (p_gR s) (fst (i_cmd x)) (fst (i_ia x))) as (a & -> & A); [lra|auto|].
    destruct (comp_actual_back (i_t x - p_tref s) (p_gI s) (snd (i_cmd x)) (snd (i_ia x))) as (b & -> & B); [lra|auto|].
    simpl. eexists. split; [reflexivity|]. simpl. split; auto. intros; exfalso; lra.
  - eexists. split; [reflexivity|]. simpl. split; auto. intros; exfalso; lra.
Qed.
Print Assumptions C34_any_time_partial.

(** ... and for single-phase DERs each evaluation is limited by gradient times
    the absolute simulation time, over any history of positive times. *)
Theorem C34_single_phase_partial :
  forall xs x s s1, p_limiter s = true -> 0 <= p_gR s -> 0 <= p_gI s -> p_tref s = 0 ->
  ramp_run update_iref_single_phase s xs = (s1, Ok tt) -> 0 < i_t x ->
  exists s2, update_iref_single_phase s1 x = (s2, Ok tt) /\
    moves_towards (p_gR s) (i_t x - 0) (fst (p_ref s1)) (fst (i_cmd x)) (fst (p_ref s2)) /\
    moves_towards (p_gI s) (i_t x - 0) (snd (p_ref s1)) (snd (i_cmd x)) (snd (p_ref s2)).
Proof.
  intros xs x s s1 Hl HR HI Ht Hr Hx.
  assert (K : p_limiter s1 = true /\ p_gR s1 = p_gR s /\ p_gI s1 = p_gI s /\ p_tref s1 = 0).
  { revert s Hl HR HI Ht Hr. induction xs as [|y xs IH]; intros s Hl HR HI Ht Hr.
    - injection Hr as <-. auto.
    - cbn [ramp_run] in Hr. unfold update_iref_single_phase at 1 in Hr. unfold update_iref in Hr.
      set (r := if (p_limiter s && true)%bool then _ else _) in Hr. destruct r as [v|e]; [|discriminate].
      specialize (IH (Ramp (p_tref s) v (p_gR s) (p_gI s) (p_limiter s)) Hl HR HI Ht Hr). exact IH. }
  destruct K as (L & GR & GI & T).
  unfold update_iref_single_phase, update_iref. rewrite L. cbn [andb]. unfold get_ramp_limited_iref.
  rewrite T. assert (E : qlt 0 (i_t x) = true) by (apply qlt_iff; auto). rewrite E.
  unfold get_iref_actual. rewrite T, GR, GI.
  destruct (comp_actual_spec (i_t x - 0) (p_gR s) (fst (i_cmd x)) (fst (p_ref s1))) as (a & -> & Ha); [lra|auto|].
  destruct (comp_actual_spec (i_t x - 0) (p_gI s) (snd (i_cmd x)) (snd (p_ref s1))) as (b & -> & Hb); [lra|auto|].
  simpl. eexists. split; [reflexivity|]. auto.
Qed.
Print Assumptions C34_single_phase_partial.

Example C34_hypotheses_met :
  let s := Ramp 0 (0, 0) 1 2 true in
  snd (ramp_run update_iref_single_phase s [rx 1 5 5 (0,0); rx (1#2) (-5) 5 (1,1)]) = Ok tt /\
  p_ref (fst (ramp_run update_iref_three_phase s [rx 1 5 5 (0,0); rx 1 7 7 (0,0)])) =
  p_ref (fst (ramp_run update_iref_three_phase s [rx 1 5 5 (0,0)])).
Proof. vm_compute. auto. Qed.
