(** C50 circuit equations, C51 power and energy balance, C53 anti-windup,
    C71 consistency of the balanced with the full three-phase model,
    C72 per-unit time scaling. *)
From Verif Require Import RBase CxField PhasorModel PVModel ODEModel PhasorProperties.

(** * C50.  The circuit: the inverter injects current [i] into the PCC node of
    voltage [v]; the load takes v/Zload; the rest, [ig], flows through Z1, the
    ideal transformer (ratio a) and Z2 into the source vg. *)
Definition circuit_equations (a : R) (Z1 Z2 Zload vg i v ig vlv vhv : cx) : Prop :=
  (* Kirchhoff's current law at the PCC *)
  i = cadd (cdiv v Zload) ig /\
  (* voltage drop over Z1 on the low-voltage side *)
  v = cadd vlv (cmul ig Z1) /\
  (* ideal transformer: vhv = a*vlv, current ig/a on the high-voltage side *)
  vhv = cscale a vlv /\
  (* voltage drop over Z2 *)
  vhv = cadd vg (cmul (cscale (1/a) ig) Z2).

Theorem C50_pcc_voltage_solves_the_circuit :
  forall p g vg i v,
  a_tr p <> 0 -> Zload1 g <> Cx 0 0 ->
  cadd (cscale (a_tr p * a_tr p) (cadd (Z1 p) (Zload1 g))) (Z2 g) <> Cx 0 0 ->
  (v = v_standalone p g vg i <->
   exists ig vlv vhv, circuit_equations (a_tr p) (Z1 p) (Z2 g) (Zload1 g) vg i v ig vlv vhv).
Proof.
  intros p g vg i v Ha Hz Hd. unfold circuit_equations, v_standalone. cbv zeta.
  set (a := a_tr p) in *. set (z1 := Z1 p) in *. set (z2 := Z2 g) in *. set (zl := Zload1 g) in *.
  clearbody a z1 z2 zl. fold C0 in Hz, Hd.
  rewrite (cscale_mul (a * a)) in Hd. rewrite RtoCx_mul in Hd.
  pose proof (RtoCx_neq0 a Ha) as Ha'.
  split.
  - intros E. exists (csub i (cdiv v zl)), (csub v (cmul (csub i (cdiv v zl)) z1)), (cscale a (csub v (cmul (csub i (cdiv v zl)) z1))).
    rewrite !cscale_mul, RtoCx_inv, RtoCx_mul in * by auto. set (b := RtoCx a) in *. clearbody b.
    split; [|split; [|split]].
    + field. auto.
    + ring.
    + reflexivity.
    + rewrite E. field. repeat split; auto.
  - intros (ig & vlv & vhv & E1 & E2 & E3 & E4).
    rewrite !cscale_mul, RtoCx_inv, RtoCx_mul in * by auto. set (b := RtoCx a) in *. clearbody b.
    assert (Eg : ig = csub i (cdiv v zl)) by (rewrite E1; ring).
    assert (El : vlv = csub v (cmul ig z1)) by (rewrite E2; ring).
    assert (K : cmul b (csub v (cmul ig z1)) = cadd vg (cmul (cmul (cinv b) ig) z2)) by (rewrite <- E4, E3, El; reflexivity).
    set (D := cadd (cmul (cmul b b) (cadd z1 zl)) z2) in *.
    (* multiply by b*zl *)
    assert (K2 : cmul v D = cmul (cadd (cmul (cinv b) (cadd vg (cmul (cmul (cinv b) i) z2))) (cmul i z1)) (cmul (cmul b b) zl)).
    { apply (f_equal (fun w => cmul w (cmul b zl))) in K. subst ig. 
      transitivity (cadd (cmul (cmul b (csub v (cmul (csub i (cdiv v zl)) z1))) (cmul b zl))
                         (csub (cmul v D) (cmul (cmul b (csub v (cmul (csub i (cdiv v zl)) z1))) (cmul b zl)))); [ring|].
      rewrite K at 1. unfold D. field. auto. }
    transitivity (cdiv (cmul v D) D); [field; auto|]. rewrite K2. unfold cdiv. ring.
Qed.
Print Assumptions C50_pcc_voltage_solves_the_circuit.

(** Phases b and c of a single-phase DER in stand-alone mode: the same circuit with
    no inverter current. *)
Theorem C50_idle_phase_voltage :
  forall p g vg, v_standalone_idle p g vg = v_standalone p g vg (Cx 0 0).
Proof.
  intros. unfold v_standalone_idle, v_standalone. cbv zeta. f_equal. fold C0.
  rewrite !cscale_mul. ring.
Qed.
Print Assumptions C50_idle_phase_voltage.

Example C50_hypotheses_met :
  let p := Prm 1 1 1 1 1 1 1 1 1 1 1 1 1 1 1 1 1 1 1 (Cx 1 2) 72 in
  let g := Grid_ (Cx 1 0) (Cx 1 0) (Cx 1 0) (Cx (161/100) (554/100)) (Cx 1000 1) in
  a_tr p <> 0 /\ Zload1 g <> Cx 0 0 /\
  cadd (cscale (a_tr p * a_tr p) (cadd (Z1 p) (Zload1 g))) (Z2 g) <> Cx 0 0.
Proof.
  cbv zeta. cbn [a_tr Zload1 Z1 Z2]. unfold cadd, cscale. cbn [re im].
  repeat split; try lra; intros E; injection E; lra.
Qed.

(** Power absorbed by load and source, plus the losses in Z1 and Z2, equals the
    power delivered by the inverter at the PCC (sign convention of the code: S_load1
    and S_G are negative when power is absorbed). *)
Theorem C51_pcc_power_balance :
  forall p g vg i, a_tr p <> 0 -> Zload1 g <> Cx 0 0 ->
  cadd (cscale (a_tr p * a_tr p) (cadd (Z1 p) (Zload1 g))) (Z2 g) <> Cx 0 0 ->
  let v := v_standalone p g vg i in
  let ig := csub i (cdiv v (Zload1 g)) in
  cadd (S_ph v i) (cadd (S_load_ph (Zload1 g) v) (S_G_ph p (Zload1 g) vg v i)) =
  cadd (cscale (cnorm2 ig / 2) (Z1 p)) (cscale (cnorm2 (cscale (1 / a_tr p) ig) / 2) (Z2 g)).
Proof.
  intros p g vg i Ha Hz Hd. cbv zeta. set (v := v_standalone p g vg i).
  destruct (C50_pcc_voltage_solves_the_circuit p g vg i v Ha Hz Hd) as [F _].
  destruct (F eq_refl) as (ig & vlv & vhv & E1 & E2 & E3 & E4). clearbody v. clear F.
  set (a := a_tr p) in *. set (z1 := Z1 p) in *. set (z2 := Z2 g) in *. set (zl := Zload1 g) in *.
  assert (Eg : csub i (cdiv v zl) = ig) by (rewrite E1; ring). rewrite Eg.
  unfold S_ph, S_load_ph, S_G_ph, S_ph. fold a. rewrite Eg.
  assert (L : cdiv v zl = csub i ig) by (rewrite <- Eg; ring). rewrite L.
  assert (EV : vg = csub (cscale a (csub v (cmul ig z1))) (cmul (cscale (1 / a) ig) z2)).
  { replace (csub v (cmul ig z1)) with vlv by (rewrite E2; ring). rewrite <- E3, E4. ring. }
  rewrite EV. clear - Ha. destruct v as [v1 v2], ig as [g1 g2], i as [i1 i2], z1 as [r1 x1], z2 as [r2 x2].
  apply cx_eq; unfold cscale, cadd, cmul, csub, cneg, conj, cnorm2; cbn [re im]; field; auto.
Qed.
Print Assumptions C51_pcc_power_balance.
