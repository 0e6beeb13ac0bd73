(** Property C52: the state lists over which the Jacobian theorems range are the
    complete state vectors. *)
From Verif Require Import RBase PhasorModel PVModel ODEModel JacModel Const3Jac.

(** the quantities that are states of a model: those of its phases and its
    controllers (C54 gives their order) *)
Theorem C52_state_lists_complete :
  (forall v, In v states1 <-> (exists c, v = P PA c) \/ v = VDC \/ v = XDC \/ v = XQ \/ v = XPLL \/ v = WTE) /\
  (forall v, In v statesb <-> (exists c, v = P PA c) \/ v = VDC \/ v = XDC \/ v = XQ \/ v = XPLL \/ v = WTE) /\
  (forall v, In v statesc <-> (exists c, v = P PA c) \/ v = XP \/ v = XQ \/ v = XPLL \/ v = WTE) /\
  (forall v, In v states3 <-> v <> XP) /\
  (forall v, In v states3c <-> v <> VDC /\ v <> XDC /\ v <> VRF) /\
  (NoDup states1 /\ NoDup statesb /\ NoDup statesc /\ NoDup states3 /\ NoDup states3c) /\
  (length states1 = 11 /\ length statesb = 11 /\ length statesc = 10 /\ length states3 = 24 /\ length states3c = 22)%nat.
Proof.
  assert (ND : forall l : list var, (fix nd l := match l with [] => true | a :: l => if in_dec var_eq_dec a l then false else nd l end) l = true -> NoDup l).
  { induction l as [|a l IH]; intros H; [constructor|]. destruct (in_dec var_eq_dec a l); [discriminate|]. constructor; auto. }
  split; [|split; [|split; [|split; [|split; [|split]]]]].
  1-5: intros v; split; [intros H; cbn in H; repeat (destruct H as [<-|H]; [first [discriminate | left; eexists; reflexivity | tauto | repeat split; discriminate]|]); contradiction|].
  1-3: intros [[[] ->]|H]; cbn; intuition (subst; auto).
  1-2: destruct v as [[] []| | | | | | |]; intros H; cbn; try tauto; exfalso; try (destruct H as (H1 & H2 & H3)); try congruence.
  - repeat split; apply ND; vm_compute; reflexivity.
  - repeat split; reflexivity.
Qed.
Print Assumptions C52_state_lists_complete.
