(** Tools for C52. *)
From Coquelicot Require Import Coquelicot.
From Coq Require Import List.
From Verif Require Import RBase PhasorModel PVModel ODEModel JacModel JacSpec PhasorProperties PhasorProperties2.
Import RBase.
Open Scope R_scope.

Lemma aw_0 s d x : aw s d x 0 = 0.
Proof. unfold aw. destruct s; auto. destruct (same_sign d x); auto. Qed.
Lemma aw_ext s d x a b : a = b -> aw s d x a = aw s d x b.
Proof. intros ->. auto. Qed.

Lemma locally_sign (f : R -> R) x0 : continuous f x0 -> f x0 <> 0 -> locally x0 (fun x => np_sign (f x) = np_sign (f x0)).
Proof.
  intros C N. unfold np_sign. destruct (Rtotal_order (f x0) 0) as [H|[H|H]]; [|lra|].
  - assert (L : locally x0 (fun x => f x < 0)) by (apply (C (fun r => r < 0)); apply (open_lt 0); auto).
    eapply filter_imp; [|exact L]. cbn. intros x Hx.
    replace (rlt 0 (f x)) with false by (symmetry; apply rlt_false; lra). replace (rlt 0 (f x0)) with false by (symmetry; apply rlt_false; lra).
    replace (rlt (f x) 0) with true by (symmetry; apply rlt_iff; lra). replace (rlt (f x0) 0) with true by (symmetry; apply rlt_iff; lra). auto.
  - assert (L : locally x0 (fun x => 0 < f x)) by (apply (C (fun r => 0 < r)); apply (open_gt 0); auto).
    eapply filter_imp; [|exact L]. cbn. intros x Hx.
    replace (rlt 0 (f x)) with true by (symmetry; apply rlt_iff; lra). replace (rlt 0 (f x0)) with true by (symmetry; apply rlt_iff; lra). auto.
Qed.
Lemma locally_rlt (f : R -> R) x0 L : continuous f x0 -> f x0 <> L -> locally x0 (fun x => rlt L (f x) = rlt L (f x0)).
Proof.
  intros C N. destruct (Rtotal_order (f x0) L) as [H|[H|H]]; [|lra|].
  - assert (LL : locally x0 (fun x => f x < L)) by (apply (C (fun r => r < L)); apply (open_lt L); auto).
    eapply filter_imp; [|exact LL]. cbn. intros x Hx. transitivity false; [|symmetry]; apply rlt_false; lra.
  - assert (LL : locally x0 (fun x => L < f x)) by (apply (C (fun r => L < r)); apply (open_gt L); auto).
    eapply filter_imp; [|exact LL]. cbn. intros x Hx. transitivity true; [|symmetry]; apply rlt_iff; lra.
Qed.
(** The anti-windup branch is locally constant away from its switching surface. *)
Lemma aw_derive L (s d z val : R -> R) x0 l :
  continuous s x0 -> continuous d x0 -> continuous z x0 -> off_switch L (s x0) (d x0) (z x0) ->
  is_derive val x0 l ->
  is_derive (fun x => aw (rlt L (s x)) (d x) (z x) (val x)) x0 (aw (rlt L (s x0)) (d x0) (z x0) l).
Proof.
  intros Cs Cd Cz [N H] D. pose proof (locally_rlt s x0 L Cs N) as E1.
  destruct (rlt L (s x0)) eqn:S0.
  - apply rlt_iff in S0. destruct (H S0) as [Nd Nz].
    pose proof (locally_sign d x0 Cd Nd) as E2. pose proof (locally_sign z x0 Cz Nz) as E3.
    apply is_derive_ext_loc with (fun x => aw true (d x0) (z x0) (val x)).
    + generalize (filter_and _ _ E1 (filter_and _ _ E2 E3)). apply filter_imp. intros x (A & B & C).
      rewrite A. unfold aw, same_sign. rewrite B, C. auto.
    + unfold aw. destruct (same_sign (d x0) (z x0)); auto. apply @is_derive_const.
  - apply is_derive_ext_loc with val; [|exact D].
    generalize E1. apply filter_imp. intros x ->. reflexivity.
Qed.
Lemma cabs_cont (f g : R -> R) x0 : continuous f x0 -> continuous g x0 -> continuous (fun x => cabs (Cx (f x) (g x))) x0.
Proof.
  intros F G. unfold cabs, cnorm2. cbn [re im].
  apply (continuous_comp (fun x => f x * f x + g x * g x) sqrt).
  - apply (continuous_plus (fun x => f x * f x) (fun x => g x * g x)); apply (continuous_mult (K := R_AbsRing)); auto.
  - apply continuity_pt_filterlim. apply continuity_pt_sqrt. nra.
Qed.
Lemma ex_cont (f : R -> R) x0 : ex_derive f x0 -> continuous f x0.
Proof. intros H. apply (ex_derive_continuous (K := R_AbsRing) (V := R_NormedModule) f x0 H). Qed.

(** PV power below the clamp in the generating region. *)
Lemma Ppv_local p e V : pv_regular p e V ->
  locally V (fun x => Ppv_of p e x = Ipv_val (e_mod e) (x * Vdcbase p) * (x * Vdcbase p) / Sbase).
Proof.
  intros (H1 & H2 & H3 & H4).
  assert (D : q_charge <> 0 /\ k_boltz <> 0 /\ A_ideal <> 0) by (unfold q_charge, k_boltz, A_ideal; lra). destruct D as (D1 & D2 & D3).
  assert (C1 : continuous (fun x => x * Vdcbase p) V) by (apply ex_cont; auto_derive; auto).
  assert (C2 : continuous (fun x => Ipv_val (e_mod e) (x * Vdcbase p) * (x * Vdcbase p)) V).
  { apply ex_cont. unfold Ipv_val. auto_derive. auto. }
  assert (L1 : locally V (fun x => x * Vdcbase p < Vdcmpp_max p)) by (apply (C1 (fun r => r < Vdcmpp_max p)); apply (open_lt (Vdcmpp_max p)); auto).
  assert (L2 : locally V (fun x => 0 < Ipv_val (e_mod e) (x * Vdcbase p) * (x * Vdcbase p))) by (apply (C2 (fun r => 0 < r)); apply (open_gt 0); auto).
  generalize (filter_and _ _ L1 L2). apply filter_imp. intros x [A B].
  unfold Ppv_of, Ppv_val, Vdc_actual. rewrite Rmin_right by lra. rewrite Rmax_right by lra. reflexivity.
Qed.
