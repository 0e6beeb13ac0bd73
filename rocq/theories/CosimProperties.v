(** C126: co-simulation steps. *)
From Coq Require Import String.
From Verif Require Import Base EventsModel SimModel SimSpec SimLemmas SimProofs SimProofs2 SimProofs3 SimProofs4 SimProperties CosimModel.
Open Scope string_scope.
Open Scope Q_scope.

(** * Specification *)
(** the phases whose voltage the caller must supply for each model type *)
Definition all_phases (m : mtype) : bool := match m with MThree | MThreeNV | MThreeC | MNumba => true | _ => false end.
Definition is_number {V} (x : varg V) (v : V) : Prop := x = AComplex v \/ x = AReal v.

(** What a call with proper arguments means, for a DER fed by the caller: over the
    times given, from the initial states given, with phase A at the voltage given; the
    other phases at the voltages given, or, in the balanced model, at phase A turned by
    120 degrees either way. *)
Record meant {V} (o : ops V) (m : mtype) (c : call V) (iv : interval V) : Prop := Meant {
  mn_a : c_va c = AComplex (d_va (i_d iv));
  mn_bc : if all_phases m then is_number (c_vb c) (d_vb (i_d iv)) /\ is_number (c_vc c) (d_vc (i_d iv)) else True;
  mn_bal : m = MBal -> d_vb (i_d iv) = o_b o (d_va (i_d iv)) /\ d_vc (i_d iv) = o_c o (d_va (i_d iv));
  mn_single : three_phases m = false -> d_vb (i_d iv) = d_vb (c_post c) /\ d_vc (i_d iv) = d_vc (c_post c);
  mn_rest : d_state (i_d iv) = d_state (c_post c) /\ d_vdc (i_d iv) = d_vdc (c_post c) /\ d_misc (i_d iv) = d_misc (c_post c)
            /\ d_alone (i_d iv) = false /\ i_g iv = c_grid c;
  mn_t : c_t c = PTimes (i_t iv);
  mn_sol : exists y, c_y0 c = PList y /\ i_sol iv = c_solver c (d_va (i_d iv), d_vb (i_d iv), d_vc (i_d iv)) y (i_t iv) }.
(** a session and the intervals its calls mean *)
Inductive session_meant {V} (o : ops V) (m : mtype) : list (cop V) -> list (op V) -> Prop :=
| sm_nil : session_meant o m [] []
| sm_call c iv h h' : meant o m c iv -> session_meant o m h h' -> session_meant o m (CCall c :: h) (ORun iv :: h')
| sm_get h h' : session_meant o m h h' -> session_meant o m (CGet :: h) (OGet :: h').

(** * Proofs *)
Lemma Inv_tv {V} (o : ops V) m d0 ivs s ts : Inv o m d0 ivs s ->
  Inv o m d0 ivs (Sim V (typ s) (at_ s) ts (tt_ s) (ut_ s) (loop_mode s) (collect_sol s)).
Proof. intros [A B C D E]. constructor; auto. Qed.
Lemma cosim_call_ok {V} (o : ops V) m d0 ivs s dv c iv :
  Inv o m d0 ivs s -> meant o m c iv -> wf_interval m iv ->
  exists s' dv', cosim_call o false c (s, dv) = ((s', dv'), Ok tt) /\ Inv o m d0 (ivs ++ [iv])%list s' /\
    att_a dv' = c_va c /\ (all_phases m = true -> att_b dv' = c_vb c /\ att_c dv' = c_vc c).
Proof.
  intros HI HM HW. destruct HM as [Ma Mbc Mbal Msin (R1 & R2 & R3 & R4 & R5) Mt (y & My & Ms)].
  assert (T : typ s = m) by (destruct HI; auto).
  unfold cosim_call. rewrite Ma, My, Mt, T. rewrite <- Ma.
  set (dv' := update_grid_measurements o m dv (c_va c) (c_vb c) (c_vc c)).
  assert (VR : volts_read m false (c_post c) dv' = Ok (d_va (i_d iv), d_vb (i_d iv), d_vc (i_d iv))).
  { unfold volts_read, dv', update_grid_measurements. rewrite Ma.
    destruct m; cbn [all_phases three_phases rotated att_a att_b att_c as_number bindR] in *;
      try (destruct Mbc as [[-> | ->] [-> | ->]]; reflexivity);
      try (destruct (Msin eq_refl) as [-> ->]; reflexivity);
      try (destruct (Mbal eq_refl) as [-> ->]; reflexivity). }
  assert (WD : with_volts (c_post c) false (d_va (i_d iv), d_vb (i_d iv), d_vc (i_d iv)) = i_d iv).
  { unfold with_volts. destruct (i_d iv) as [a1 a2 a3 a4 a5 a6 a7]. cbn in *. subst. reflexivity. }
  destruct (i_t iv) as [|t0 tl] eqn:Et; [exfalso; apply (proj1 HW); exact Et|].
  rewrite VR, WD, <- Ms, <- Et, <- R5.
  set (s1 := if qeq t0 0 then _ else s).
  assert (I1 : Inv o m d0 ivs s1).
  { unfold s1. destruct (qeq t0 0); auto. rewrite <- T. apply (Inv_tv o (typ s)). rewrite T. auto. }
  destruct (Inv_run o m d0 ivs iv s1 I1 HW) as (s2 & E & I2 & _). rewrite E.
  exists s2, dv'. split; [reflexivity|]. split; [exact I2|].
  unfold dv', update_grid_measurements. destruct m; cbn; split; auto; discriminate.
Qed.
Lemma session_ok {V} (o : ops V) m d0 : forall h h', session_meant o m h h' -> forall ivs s dv,
  Inv o m d0 ivs s -> ivs <> [] -> Forall (wf_interval m) (ivs ++ runs h')%list ->
  exists s' dv', session o false h (s, dv) = Ok (s', dv') /\ Inv o m d0 (ivs ++ runs h')%list s'.
Proof.
  induction 1 as [|c iv h h' Hm Hs IH|h h' Hs IH]; intros ivs s dv HI Hne Hwf.
  - exists s, dv. cbn [runs]. rewrite app_nil_r. auto.
  - cbn [runs] in *. assert (Wiv : wf_interval m iv) by (rewrite Forall_app in Hwf; destruct Hwf as [_ Hwf]; inversion Hwf; auto).
    destruct (cosim_call_ok o m d0 ivs s dv c iv HI Hm Wiv) as (s1 & dv1 & E1 & I1 & _).
    cbn [session]. rewrite E1. cbn [bindR].
    destruct (IH (ivs ++ [iv])%list s1 dv1 I1) as (s2 & dv2 & E2 & I2); [destruct ivs; discriminate|rewrite <- app_assoc; exact Hwf|].
    exists s2, dv2. split; auto. rewrite <- app_assoc in I2. exact I2.
  - cbn [runs session] in *. assert (Wi : Forall (wf_interval m) ivs) by (rewrite Forall_app in Hwf; tauto).
    destruct (Inv_get o m d0 ivs s HI Hne Wi) as (s1 & trs & E1 & I1 & _). cbn [fst snd]. rewrite E1. cbn [bindR].
    apply IH; auto.
Qed.

(** * C126 *)
(** In a session of proper calls, every interval is simulated from the states and over
    the times of its call with exactly the voltages of that call in force, and the
    returned trajectories show this, interval by interval. *)
Theorem C126_session_partial : forall (V : Type) (o : ops V) (m : mtype) (d : der V) (ts : list Q) (dv : dvolt V)
  (y : list V) c iv h h',
  der_y0 m (d_state d) = Ok y -> meant o m c iv -> session_meant o m h h' -> Forall (wf_interval m) (iv :: runs h') ->
  exists s0 s dv' s' trs, make_sim o m d ts true true = Ok s0 /\
    session o false (CCall c :: h) (s0, dv) = Ok (s, dv') /\ get_trajectories s = (s', Ok trs) /\
    tt_ s' = Some (A1 (0 :: new_times (iv :: runs h'))) /\
    (forall k, In k (List.map fst trs) <-> In k (spec_names m)) /\
    (forall k v, In (k, v) trs -> exists l, v = A1 l /\
       List.map Some l = Some (spec_initial d k) :: new_samples o m k (iv :: runs h')).
Proof.
  intros V o m d ts dv y c iv h h' Hy Hc Hh Hwf.
  destruct (make_ok o m d ts true true y Hy) as (s0 & E0 & _ & _ & _ & _ & _ & HI & _).
  specialize (HI eq_refl eq_refl). inversion Hwf as [|? ? Wiv Wr]; subst.
  destruct (cosim_call_ok o m d [] s0 dv c iv HI Hc Wiv) as (s1 & dv1 & E1 & I1 & _).
  destruct (session_ok o m d h h' Hh ([] ++ [iv])%list s1 dv1 I1) as (s2 & dv2 & E2 & I2); auto. { discriminate. }
  destruct (Inv_get o m d _ s2 I2) as (s3 & trs & E3 & _ & N & T & H & _); auto. { discriminate. }
  exists s0, s2, dv2, s3, trs. split; auto. cbn [session]. rewrite E1. cbn [bindR]. split; auto. split; auto.
  cbn [app] in *. split; auto. split; auto.
  intros k. rewrite N. apply traj_names.
Qed.
Print Assumptions C126_session_partial.

(** In particular the recorded phase voltages are the supplied ones: for each call, as
    many copies of its voltage as it has new time points. *)
Theorem C126_recorded_voltages_partial : forall (V : Type) (o : ops V) (m : mtype) h h',
  session_meant o m h h' -> Forall (wf_interval m) (runs h') ->
  forall p, (p = PhA \/ three_phases m = true) ->
  new_samples o m (match p with PhA => "va_t" | PhB => "vb_t" | PhC => "vc_t" end) (runs h') =
  flat_map (fun iv => repeat (Some (match p with PhA => d_va (i_d iv) | PhB => d_vb (i_d iv) | PhC => d_vc (i_d iv) end))
                             (List.length (List.tl (i_t iv)))) (runs h').
Proof.
  intros V o m h h' Hs Hwf p Hp. revert Hwf. induction Hs as [|c iv h h' Hm Hs IH|h h' Hs IH]; intros Hwf; cbn [runs] in *; auto.
  inversion Hwf as [|? ? Wiv Wr]; subst. unfold new_samples in *. cbn [flat_map]. rewrite IH by auto. f_equal. clear IH Hs.
  destruct Hm as [_ _ _ _ (_ & _ & _ & R4 & _) _ _]. destruct Wiv as (Hn & Hl & _).
  assert (Sm : forall t r, spec_sample o m (i_d iv) (i_g iv) t r (match p with PhA => "va_t" | PhB => "vb_t" | PhC => "vc_t" end)
     = Some (match p with PhA => d_va (i_d iv) | PhB => d_vb (i_d iv) | PhC => d_vc (i_d iv) end)).
  { intros t r. unfold spec_sample, spec_traj. destruct p; [cbn; unfold q_v; rewrite R4; reflexivity| |];
      (destruct Hp as [Hp|Hp]; [discriminate|]; rewrite Hp; cbn; unfold q_v; rewrite R4; reflexivity). }
  destruct (i_t iv) as [|t0 tl] eqn:Et; [congruence|]. destruct (i_sol iv) as [|r0 rl]; [discriminate|].
  cbn [combine List.map List.tl]. cbn [List.length] in Hl. injection Hl as Hl. clear - Sm Hl. revert rl Hl.
  induction tl as [|t tl IH]; intros [|r rl] Hl; cbn in *; try discriminate; auto.
  rewrite Sm. f_equal. apply IH. congruence.
Qed.
Print Assumptions C126_recorded_voltages_partial.

(** A call without a complex phase-A voltage, a list of initial states and a list of
    times is refused with ValueError and changes nothing. *)
Theorem C126_refused_partial : forall (V : Type) (o : ops V) alone (c : call V) w,
  (forall v, c_va c <> AComplex v) \/ (forall l, c_y0 c <> PList l) \/ (forall l, c_t c <> PTimes l) ->
  cosim_call o alone c w = (w, Raise ValueError).
Proof.
  intros V o alone c [s dv] H. unfold cosim_call.
  destruct (c_va c) as [va|va|] eqn:E1; auto. destruct (c_y0 c) as [| l | |] eqn:E2; auto. destruct (c_t c) as [| | l'|] eqn:E3; auto.
  exfalso. destruct H as [H|[H|H]]; eapply H; eauto.
Qed.
Print Assumptions C126_refused_partial.

(** REFUTED for the other phases: a call to a three-phase DER without phase B (or C) is
    not refused; it fails with TypeError inside the solver, after the voltages of the
    DER have been overwritten. *)
Theorem C126_missing_phase_refuted : forall (V : Type) (o : ops V) (c : call V) s dv va y t0 tl,
  all_phases (typ s) = true -> c_va c = AComplex va -> c_y0 c = PList y -> c_t c = PTimes (t0 :: tl) ->
  c_vb c = ANone \/ c_vc c = ANone ->
  exists s', cosim_call o false c (s, dv) = ((s', DVolt (AComplex va) (c_vb c) (c_vc c)), Raise TypeError).
Proof.
  intros V o c s dv va y t0 tl Ht Ha Hy Htt H. unfold cosim_call. rewrite Ha, Hy, Htt.
  set (s1 := if qeq t0 0 then _ else s). exists s1.
  assert (U : update_grid_measurements o (typ s) dv (AComplex va) (c_vb c) (c_vc c) = DVolt (AComplex va) (c_vb c) (c_vc c)) by (destruct (typ s); try discriminate; reflexivity).
  rewrite U. unfold volts_read. cbn [att_a att_b att_c].
  destruct (typ s); try discriminate; cbn [as_number bindR]; destruct H as [-> | ->]; cbn [as_number bindR]; auto;
    destruct (c_vb c); cbn [as_number bindR]; reflexivity.
Qed.
Print Assumptions C126_missing_phase_refuted.

(** REFUTED for a stand-alone DER: the voltages are demanded, and ignored. *)
Definition other_voltages {V} (c : call V) (a b d : varg V) : call V :=
  Call a b d (c_y0 c) (c_t c) (c_solver c) (c_post c) (c_grid c).
Theorem C126_standalone_refuted : forall (V : Type) (o : ops V) (c : call V) s dv va va' b d,
  c_va c = AComplex va ->
  fst (fst (cosim_call o true (other_voltages c (AComplex va') b d) (s, dv))) = fst (fst (cosim_call o true c (s, dv))) /\
  snd (cosim_call o true (other_voltages c (AComplex va') b d) (s, dv)) = snd (cosim_call o true c (s, dv)).
Proof.
  intros V o c s dv va va' b d Ha. unfold cosim_call, other_voltages. cbn [c_va c_vb c_vc c_y0 c_t c_solver c_post c_grid]. rewrite Ha.
  destruct (c_y0 c) as [| y | |]; auto. destruct (c_t c) as [| | [|t0 tl] |]; auto.
  unfold volts_read. destruct (finish_run _ _ _ _ _ _); auto.
Qed.
Print Assumptions C126_standalone_refuted.

(** * A concrete session: two steps of a three-phase DER with a read in between *)
Definition ex_call (va vb vc : varg Q) (y ts : list Q) : call Q :=
  Call va vb vc (PList y) (PTimes ts) (fun v _ l => List.map (fun _ => ex_row 24 (fst (fst v))) l) ex_der ex_grid.
Definition ex_session (vb : varg Q) : list (cop Q) :=
  [CCall (ex_call (AComplex 4) vb (AComplex 6) (ex_row 24 1) [0; 1]); CGet;
   CCall (ex_call (AComplex 8) (AReal 5) (AComplex 9) (ex_row 24 1) [1; 2; 3])].
Definition ex_interval (a b c : Q) (ts : list Q) : interval Q :=
  Interval Q (Der Q (d_state ex_der) (d_vdc ex_der) (d_misc ex_der) a b c false) ex_grid ts (List.map (fun _ => ex_row 24 a) ts).
Example C126_hypotheses_met :
  session_meant ex_ops MThree (ex_session (AComplex 3)) [ORun (ex_interval 4 3 6 [0; 1]); OGet; ORun (ex_interval 8 5 9 [1; 2; 3])] /\
  Forall (wf_interval MThree) (runs [ORun (ex_interval 4 3 6 [0; 1]); OGet; ORun (ex_interval 8 5 9 [1; 2; 3])]) /\
  match make_sim ex_ops MThree ex_der [0] true true with
  | Ok s0 => match session ex_ops false (ex_session (AComplex 3)) (s0, DVolt ANone ANone ANone) with
             | Ok (s, _) => match get_trajectories s with
                            | (_, Ok trs) => List.map snd (List.filter (fun kv => String.eqb (fst kv) "vb_t") trs) | _ => [] end
             | _ => [] end | _ => [] end = [A1 [7; 3; 5; 5]] /\
  (* the same session with phase B omitted in the first call *)
  match make_sim ex_ops MThree ex_der [0] true true with
  | Ok s0 => match session ex_ops false (ex_session ANone) (s0, DVolt ANone ANone ANone) with Raise e => Some e | _ => None end
  | _ => None end = Some TypeError.
Proof.
  split; [|split; [|split; [vm_compute; reflexivity|vm_compute; reflexivity]]].
  - constructor; [|constructor; constructor; [|constructor]]; constructor; cbn; auto; try discriminate; try (split; (left + right); reflexivity);
      try (repeat split; reflexivity); try (eexists; split; reflexivity).
  - repeat constructor; cbn; try discriminate; intros r [<-|Hr]; try reflexivity; repeat (destruct Hr as [<-|Hr]; [reflexivity|]); destruct Hr.
Qed.
