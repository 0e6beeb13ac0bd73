(** The complex numbers of RBase are a field (so that ring and field apply). *)
From Verif Require Import RBase.
Definition C0 := Cx 0 0.
Definition C1 := Cx 1 0.
Lemma cx_ring : ring_theory C0 C1 cadd cmul csub cneg (@eq cx).
Proof.
  constructor; intros; apply cx_eq; unfold C0, C1, cadd, cmul, csub, cneg; cbn [re im]; ring.
Qed.
Lemma cx_field : field_theory C0 C1 cadd cmul csub cneg cdiv cinv (@eq cx).
Proof.
  constructor.
  - apply cx_ring.
  - intros H. injection H. lra.
  - reflexivity.
  - intros z Hz. pose proof (cnorm2_pos z Hz) as N. unfold cmul, cinv, C1. cbn [re im].
    apply cx_eq; cbn [re im]; unfold cnorm2 in *; field; lra.
Qed.
Add Field cx_field_inst : cx_field.
Lemma cscale_mul k z : cscale k z = cmul (RtoCx k) z.
Proof. apply cx_eq; unfold cscale, cmul, RtoCx; cbn [re im]; ring. Qed.
Lemma RtoCx_neq0 k : k <> 0 -> RtoCx k <> C0.
Proof. intros H E. injection E. auto. Qed.
Lemma RtoCx_mul a b : RtoCx (a * b) = cmul (RtoCx a) (RtoCx b).
Proof. apply cx_eq; unfold cmul, RtoCx; cbn [re im]; ring. Qed.
Lemma RtoCx_inv a : a <> 0 -> RtoCx (1 / a) = cinv (RtoCx a).
Proof. intros. apply cx_eq; unfold cinv, RtoCx, cnorm2; cbn [re im]; field; auto. Qed.
Lemma conj_add a b : conj (cadd a b) = cadd (conj a) (conj b).
Proof. apply cx_eq; unfold conj, cadd; cbn [re im]; ring. Qed.
Lemma conj_sub a b : conj (csub a b) = csub (conj a) (conj b).
Proof. apply cx_eq; unfold conj, csub; cbn [re im]; ring. Qed.
Lemma conj_mul a b : conj (cmul a b) = cmul (conj a) (conj b).
Proof. apply cx_eq; unfold conj, cmul; cbn [re im]; ring. Qed.
Lemma conj_neg a : conj (cneg a) = cneg (conj a).
Proof. apply cx_eq; unfold conj, cneg; cbn [re im]; ring. Qed.
Lemma conj_RtoCx a : conj (RtoCx a) = RtoCx a.
Proof. apply cx_eq; unfold conj, RtoCx; cbn [re im]; ring. Qed.
Lemma mul_conj z : cmul z (conj z) = RtoCx (cnorm2 z).
Proof. apply cx_eq; unfold conj, cmul, RtoCx, cnorm2; cbn [re im]; ring. Qed.
