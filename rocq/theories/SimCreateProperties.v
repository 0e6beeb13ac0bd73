(** C128: creating a simulation. *)
From Coq Require Import String.
From Verif Require Import Base EventsModel SimModel SimSpec SimLemmas SimProofs SimProofs2 SimProofs3 SimProofs4 SimProperties SimCreateModel.
Open Scope string_scope.
Open Scope Q_scope.

(** * Specification *)
(** The seven classes all define an analytical Jacobian (C52, C101); a request for it is
    documented to be possible whenever it exists. *)
Definition has_jacobian (m : mtype) : Prop := True.
Definition acceptable {V} (m : mtype) (d : der V) (a : cargs) : Prop :=
  k_solver a = "odeint" /\ (d_alone d = true -> k_grid a = true) /\ (k_jac a = true -> has_jacobian m).
(** model types for which the request is honoured *)
Definition honoured (m : mtype) : Prop := m = MSingle \/ m = MThree \/ m = MThreeNV \/ m = MBal.

(** * C128 *)
(** Exactly which creations succeed (for a DER that has its states), and the exception
    of every other one.  The new simulation starts from the DER's states. *)
Theorem C128_creation_partial : forall (V : Type) (o : ops V) m (d : der V) a x y ts,
  der_y0 m (d_state d) = Ok y -> t_calc 0 (k_tStop a) (1 # 1000) = Ok ts ->
  (k_solver a = "odeint" /\ (d_alone d = true -> k_grid a = true) /\ (k_jac a = true -> honoured m) ->
   exists x' s, create_simulation o m d a x = (x', Ok (Datatypes.S (x_count x), s)) /\ typ s = m /\ sim_y0 m (at_ s) = Ok y /\
     loop_mode s = k_loop a /\ collect_sol s = k_collect a /\ tv s = ts) /\
  (k_solver a <> "odeint" -> snd (create_simulation o m d a x) = Raise AttributeError) /\
  (k_solver a = "odeint" -> (k_jac a = true /\ ~ honoured m) \/ (d_alone d = true /\ k_grid a = false) ->
   snd (create_simulation o m d a x) = Raise ValueError).
Proof.
  intros V o m d a x y ts Hy Ht. unfold create_simulation, tStart0, tInc0. rewrite Ht. cbn [snd x_count].
  destruct (C74_solver_selection_refuted V m) as (S1 & S2 & S3).
  assert (J : honoured m <-> jac_list m = true).
  { unfold honoured. split; [intros [-> |[-> |[-> | ->]]]; reflexivity|]. destruct m; try discriminate; tauto. }
  split; [|split].
  - intros (-> & Hg & Hj). rewrite S1. cbn [bindR].
    assert (CJ : check_jac_availability m (k_jac a) = Ok tt).
    { unfold check_jac_availability. destruct (k_jac a); auto. rewrite (proj1 J (Hj eq_refl)). reflexivity. }
    rewrite CJ. cbn [bindR]. replace (d_alone d && negb (k_grid a))%bool with false.
    2: { destruct (d_alone d); auto. rewrite Hg by auto. reflexivity. }
    cbn [bindR]. destruct (make_ok o m d ts (k_loop a) (k_collect a) y Hy) as (s0 & E0 & Y0 & T0 & L0 & C0 & V0 & _).
    rewrite E0. cbn [bindR]. eexists; exists s0. split; [reflexivity|]. auto.
  - intros Hs. destruct (string_dec (k_solver a) "ode-vode-bdf") as [E|E].
    + rewrite E, S2. reflexivity.
    + rewrite S3; [reflexivity|]. intros [K|[K|[]]]; congruence.
  - intros -> H. rewrite S1. cbn [bindR]. unfold check_jac_availability.
    destruct H as [[-> H]|[H1 H2]].
    + destruct (jac_list m) eqn:Ej; [exfalso; apply H, J, eq_refl|]. reflexivity.
    + destruct (k_jac a); [destruct (jac_list m)|]; cbn [bindR]; rewrite ?H1, ?H2; reflexivity.
Qed.
Print Assumptions C128_creation_partial.

(** REFUTED: three model types that have an analytical Jacobian are refused when it is
    asked for. *)
Theorem C128_jacobian_refuted : forall (V : Type) (o : ops V) m (d : der V) a x y ts,
  In m [MSingleC; MThreeC; MNumba] -> der_y0 m (d_state d) = Ok y -> t_calc 0 (k_tStop a) (1 # 1000) = Ok ts ->
  acceptable m d a -> k_jac a = true ->
  snd (create_simulation o m d a x) = Raise ValueError.
Proof.
  intros V o m d a x y ts Hm Hy Ht (Hs & _) Hj.
  destruct (C128_creation_partial V o m d a x y ts Hy Ht) as (_ & _ & H). apply H; auto. left. split; auto.
  unfold honoured. destruct Hm as [<-|[<-|[<-|[]]]]; intros [K|[K|[K|K]]]; discriminate.
Qed.
Print Assumptions C128_jacobian_refuted.

(** REFUTED: a refused creation is not without trace; it uses up a number, and it sets
    the step of the events object passed in. *)
Theorem C128_refused_traces_refuted : forall (V : Type) (o : ops V) m (d : der V) a x ts,
  t_calc 0 (k_tStop a) (1 # 1000) = Ok ts -> k_solver a <> "odeint" ->
  create_simulation o m d a x = (Outside (Datatypes.S (x_count x)) (1 # 1000), Raise AttributeError).
Proof.
  intros V o m d a x ts Ht Hs. unfold create_simulation, tStart0, tInc0. rewrite Ht. cbn [x_count]. f_equal.
  destruct (C74_solver_selection_refuted V m) as (S1 & S2 & S3).
  destruct (string_dec (k_solver a) "ode-vode-bdf") as [E|E].
  - rewrite E, S2. reflexivity.
  - rewrite S3; [reflexivity|]. intros [K|[K|[]]]; congruence.
Qed.
Print Assumptions C128_refused_traces_refuted.

Example C128_hypotheses_met :
  let a := CArgs "odeint" true true true true (1 # 100) in
  der_y0 MBal (d_state ex_der) = Ok (ex_row 11 1) /\ is_ok (t_calc 0 (k_tStop a) (1 # 1000)) = true /\
  is_ok (snd (create_simulation ex_ops MBal ex_der a (Outside 4 0))) = true /\
  snd (create_simulation ex_ops MNumba ex_der a (Outside 4 0)) = Raise ValueError /\
  acceptable MNumba ex_der a.
Proof. cbv zeta. repeat split; vm_compute; auto; discriminate. Qed.
