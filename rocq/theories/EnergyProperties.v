(** C51 for every kind of DER: the energy in the filter and the DC link changes by the
    power fed in minus the power delivered minus the losses. *)
From Coquelicot Require Import Coquelicot.
From Verif Require Import RBase CxField PhasorModel PVModel ODEModel Const3Model PhasorProperties PhasorProperties2 CircuitProperties2 CircuitProperties3 PLLProperties FilterProperties BoundProofs BoundProperties.
Import RBase.
Open Scope R_scope.

(** * Specification *)
(** sum over the phases of the DER of |i|^2/2 (mean square currents); the balanced
    model stands for three equal phases *)
Definition sum_sq (k : kind) (y : st) : R :=
  let q ph := cabs (i_of y ph) ^ 2 / 2 in
  match k with SinglePhase | SingleConst => q PA | ThreePhase | ThreeConst => q PA + q PB + q PC | Balanced => 3 * q PA end.
(** energy in the filter inductors, and in the DC link *)
Definition filter_energy (p : prm) (k : kind) (y : st) : R := Lf p / 2 * sum_sq k y.
Definition link_energy (p : prm) (y : st) : R := Cdc p / 2 * (y VDC * y VDC).

(** * Proofs *)
Lemma sq_cabs z : cabs z ^ 2 = re z * re z + im z * im z.
Proof. unfold cabs. rewrite pow2_sqrt; [reflexivity|]. unfold cnorm2. nra. Qed.
Lemma S_rot ph v i : S_ph (rot ph v) (rot ph i) = S_ph v i.
Proof.
  destruct (rot_form ph v) as (c & Hn & Hc & _). rewrite !Hc. unfold S_ph. f_equal.
  assert (Hn2 : cabs c ^ 2 = 1) by (rewrite Hn; ring). rewrite sq_cabs in Hn2. clear Hn Hc.
  destruct c as [c1 c2], v as [v1 v2], i as [i1 i2]. unfold cmul, conj. cbn [re im] in *.
  apply cx_eq; cbn [re im]; [transitivity ((c1 * c1 + c2 * c2) * (v1 * i1 + v2 * i2))|transitivity ((c1 * c1 + c2 * c2) * (v2 * i1 - v1 * i2))]; try ring; rewrite Hn2; ring.
Qed.

Lemma phase_energy p k e y ph : Lf p <> 0 -> has_phase k ph ->
  Lf p / 2 * (y (P ph CiR) * rhs p k e y (P ph CiR) + y (P ph CiI) * rhs p k e y (P ph CiI)) =
  re (S_ph (v_term p k e y ph) (i_of y ph)) - re (S_ph (v_calc p e ph (i_of y ph)) (i_of y ph)) - Rf p * (cabs (i_of y ph) ^ 2 / 2).
Proof.
  intros HL Hp. destruct (rhs_current p k e y ph Hp) as [A B]. cbv zeta in A, B. rewrite A, B, sq_cabs.
  unfold across. generalize (v_term p k e y ph) as vt, (v_calc p e ph (i_of y ph)) as v. intros [t1 t2] [v1 v2].
  unfold S_ph, csub, cscale, cmul, conj, i_of. cbn [re im]. field. auto.
Qed.
Lemma d_sumsq p k E Y t : (forall v, is_derive (fun s => Y s v) t (rhs p k (E t) (Y t) v)) ->
  is_derive (fun s => sum_sq k (Y s)) t
   (let d ph := Y t (P ph CiR) * rhs p k (E t) (Y t) (P ph CiR) + Y t (P ph CiI) * rhs p k (E t) (Y t) (P ph CiI) in
    match k with SinglePhase | SingleConst => d PA | ThreePhase | ThreeConst => d PA + d PB + d PC | Balanced => 3 * d PA end).
Proof.
  intros D. cbv zeta.
  assert (Q : forall ph, is_derive (fun s => cabs (i_of (Y s) ph) ^ 2 / 2) t (Y t (P ph CiR) * rhs p k (E t) (Y t) (P ph CiR) + Y t (P ph CiI) * rhs p k (E t) (Y t) (P ph CiI))).
  { intros ph. pose proof (d_lin _ _ t (1/2) (1/2) _ _ (d_sq _ t _ (D (P ph CiR))) (d_sq _ t _ (D (P ph CiI)))) as K. cbv beta in K.
    apply (is_derive_ext (fun s => 1 / 2 * (Y s (P ph CiR) * Y s (P ph CiR)) + 1 / 2 * (Y s (P ph CiI) * Y s (P ph CiI)))).
    { intros s. rewrite sq_cabs. unfold i_of. cbn [re im]. simpl. field. }
    evar_last; [exact K|]. simpl. field. }
  destruct k; unfold sum_sq; try apply Q.
  - pose proof (d_lin _ _ t 1 1 _ _ (Q PA) (Q PB)) as K1. pose proof (d_lin _ _ t 1 1 _ _ K1 (Q PC)) as K2. cbv beta in K2.
    eapply is_derive_ext; [|evar_last; [exact K2|]]; [intros s; simpl; ring|simpl; ring].
  - pose proof (d_lin _ _ t 3 0 _ _ (Q PA) (Q PA)) as K1. cbv beta in K1.
    eapply is_derive_ext; [|evar_last; [exact K1|]]; [intros s; simpl; ring|simpl; ring].
  - pose proof (d_lin _ _ t 1 1 _ _ (Q PA) (Q PB)) as K1. pose proof (d_lin _ _ t 1 1 _ _ K1 (Q PC)) as K2. cbv beta in K2.
    eapply is_derive_ext; [|evar_last; [exact K2|]]; [intros s; simpl; ring|simpl; ring].
Qed.

(** * C51 *)
(** the filter: power from the inverter, minus power delivered, minus losses *)
Theorem C51_filter_energy : forall p k E Y t, Lf p <> 0 ->
  (forall v, is_derive (fun s => Y s v) t (rhs p k (E t) (Y t) v)) ->
  is_derive (fun s => filter_energy p k (Y s)) t
    (re (S_term p k (E t) (Y t)) - re (S_pcc p k (E t) (Y t)) - Rf p * sum_sq k (Y t)).
Proof.
  intros p k E Y t HL D. pose proof (d_sumsq p k E Y t D) as K. cbv zeta in K.
  unfold filter_energy. evar_last; [apply is_derive_scal; exact K|].
  assert (F : forall ph, has_phase k ph -> Lf p / 2 * (Y t (P ph CiR) * rhs p k (E t) (Y t) (P ph CiR) + Y t (P ph CiI) * rhs p k (E t) (Y t) (P ph CiI)) =
     re (S_ph (v_term p k (E t) (Y t) ph) (i_of (Y t) ph)) - re (S_ph (v_calc p (E t) ph (i_of (Y t) ph)) (i_of (Y t) ph)) - Rf p * (cabs (i_of (Y t) ph) ^ 2 / 2))
    by (intros ph Hp; apply phase_energy; auto).
  destruct k; unfold S_term, S_pcc, sum_sq; cbn [has_phase] in F; rewrite ?S_rot; unfold sum3; cbn [cadd re].
  - apply F. reflexivity.
  - pose proof (F PA I) as F1. pose proof (F PB I) as F2. pose proof (F PC I) as F3. clear F. simpl scal in *. unfold scal, mult in *. simpl in *. lra.
  - rewrite !S_rot. replace (Lf p / 2 * (3 * _)) with (3 * (Lf p / 2 * (Y t (P PA CiR) * rhs p Balanced (E t) (Y t) (P PA CiR) + Y t (P PA CiI) * rhs p Balanced (E t) (Y t) (P PA CiI)))) by ring.
    rewrite F by reflexivity. ring.
  - apply F. reflexivity.
  - pose proof (F PA I) as F1. pose proof (F PB I) as F2. pose proof (F PC I) as F3. clear F. simpl scal in *. unfold scal, mult in *. simpl in *. lra.
Qed.
Print Assumptions C51_filter_energy.

(** filter and DC link together: PV power fed in, minus power delivered, minus losses *)
Theorem C51_total_energy : forall p k E Y t, Lf p <> 0 -> Cdc p <> 0 -> has_dc_link k -> Y t VDC <> 0 ->
  (forall v, is_derive (fun s => Y s v) t (rhs p k (E t) (Y t) v)) ->
  is_derive (fun s => filter_energy p k (Y s) + link_energy p (Y s)) t
    (p_in p k (E t) (Y t) - re (S_pcc p k (E t) (Y t)) - Rf p * sum_sq k (Y t)).
Proof.
  intros p k E Y t HL HC Hk HV D. pose proof (C51_filter_energy p k E Y t HL D) as K1.
  pose proof (d_sq _ t _ (D VDC)) as K2. cbv beta in K2. rewrite (rhs_dc p k _ _ Hk) in K2.
  pose proof (d_lin _ _ t 1 (Cdc p / 2) _ _ K1 K2) as K. cbv beta in K.
  eapply is_derive_ext; [|evar_last; [exact K|]]; [intros s; unfold link_energy; simpl; ring|]. cbv beta. field. auto.
Qed.
Print Assumptions C51_total_energy.

Example C51_total_energy_hypotheses_met : forall m t,
  let p := decay_prm in let E := fault_env m false 0 in let Y := decay_run in
  Lf p <> 0 /\ Cdc p <> 0 /\ has_dc_link SinglePhase /\ Y t VDC <> 0 /\
  (0 < t < 5 -> forall v, is_derive (fun s => Y s v) t (rhs p SinglePhase (E t) (Y t) v)).
Proof.
  intros m t p E Y. split; [cbn; lra|]. split; [cbn; lra|]. split; [exact I|]. split; [unfold Y, decay_run; cbn; lra|].
  intros Ht v. destruct (decay_run_ok m 5 ltac:(lra)) as [D _]. apply D. auto.
Qed.
