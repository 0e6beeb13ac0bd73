(** Model of /repo/pvder/utility_functions_numba.py (all its numeric functions) over
    exact reals, transcribed separately from utility_functions.py (PhasorModel):
    the code does not share anything between the two files.  @numba.njit is taken
    to preserve the meaning of the decorated function (numba is not modelled). *)
From Verif Require Import RBase.
From Verif Require Import PhasorModel.

(** lines 41-45 *)
Definition Uunbalance_calc (ua ub uc : R) : option R :=
  let uavg := (ua + ub + uc) / 3 in
  if req uavg 0 then None else Some ((Rmax (Rmax ua ub) uc - Rmin (Rmin ua ub) uc) / uavg).
(** lines 47-55: the constants are written again in the function *)
Definition Ppv_calc (Iph Np Ns Vdc_actual Tactual Sbase : R) : R :=
  let Irs := 12 / 100000000 in
  let q := 1602 / 10000000000000000000000 in
  let k := 138 / 10000000000000000000000000 in
  let A := 192 / 100 in
  let Ipv := Np * Iph - Np * Irs * (exp ((q * Vdc_actual) / (k * Tactual * A * Ns)) - 1) in
  Rmax 0 (Ipv * Vdc_actual) / Sbase.
(** lines 57-60 *)
Definition we_calc (xPLL vd Kp_PLL : R) : R := Kp_PLL * vd + xPLL + 2 * PI * 60.
(** lines 62-65 *)
Definition S_calc (va vb vc ia ib ic : cx) : cx :=
  cscale 1 (cscale (1 / 2) (cadd (cadd (cmul va (conj ia)) (cmul vb (conj ib))) (cmul vc (conj ic)))).
(** lines 67-70 *)
Definition S_load_calc (va vb vc Zload : cx) : cx :=
  cscale (1 / 2) (cadd (cadd (cmul va (conj (cneg (cdiv va Zload)))) (cmul vb (conj (cneg (cdiv vb Zload)))))
                       (cmul vc (conj (cneg (cdiv vc Zload))))).
(** lines 72-75; division by the real turns ratio a *)
Definition S_G_calc (va vb vc vag vbg vcg ia ib ic Zload : cx) (a : R) : cx :=
  let ph v vg i := cmul (conj (cscale (/ a) (cneg (csub i (cdiv v Zload))))) vg in
  cscale (1 / 2) (cadd (cadd (ph va vag ia) (ph vb vbg ib)) (ph vc vcg ic)).
(** lines 77-81 *)
Definition m_calc (Kp_GCC : R) (u x : cx) : cx := cadd (cscale Kp_GCC u) x.
(** lines 83-86 *)
Definition ia_ref_Vdc_Q_control_calc (xDC xQ Vdc : R) (S_ : cx) (Vdc_ref Q_ref Kp_DC Kp_Q : R) : cx :=
  cadd (RtoCx (xDC + Kp_DC * (Vdc_ref - Vdc))) (cmul (Cx 0 1) (RtoCx (xQ - Kp_Q * (Q_ref - im S_)))).
(** lines 88-91 *)
Definition i_load_calc (v Zload : cx) : cx := cdiv v Zload.
(** lines 93-96 *)
Definition vt_calc (m : cx) (Vdc : R) : cx := cmul m (RtoCx (Vdc / 2)).
(** lines 98-101 *)
Definition Vabrms_calc (va vb : cx) : R := cabs (csub va vb) / sqrt 2.
(** lines 103-106, 108-111, 113-116 *)
Definition Urms_calc (ua ub uc : cx) : R := sqrt ((pow (cabs ua) 2 + pow (cabs ub) 2 + pow (cabs uc) 2) / 3) / sqrt 2.
Definition Urms_min_calc (ua ub uc : cx) : R := Rmin (Rmin (cabs ua) (cabs ub)) (cabs uc) / sqrt 2.
Definition Urms_calc_1phase (ua : cx) : R := cabs ua / sqrt 2.
(** lines 118-122, 124-128 *)
Definition Ub_calc (Ua : cx) : cx := cmul Ua (cexp (- (2 / 3) * PI)).
Definition Uc_calc (Ua : cx) : cx := cmul Ua (cexp ((2 / 3) * PI)).
(** lines 130-137 *)
Definition relative_phase_calc (Uph1 Uph2 : cx) (DEGREES : bool) : R :=
  if DEGREES then py_mod (degrees (cphase Uph1 - cphase Uph2)) 360
  else radians (py_mod (degrees (cphase Uph1 - cphase Uph2)) 360).
(** lines 140-152 *)
Definition phasor_to_time (upha uphb uphc : cx) (w t : R) : R * R * R :=
  let ua := cabs upha * re (cexp (w * t + cphase upha - PI / 2)) in
  let ub := cabs uphb * re (cexp (w * t + cphase uphb - PI / 2)) in
  let uc := cabs uphc * re (cexp (w * t + cphase uphc - PI / 2)) in
  (ua, ub, uc).
(** lines 154-158 *)
Definition phasor_to_time_1phase (uph : cx) (w t : R) : R :=
  cabs uph * re (cexp (w * t + cphase uph - PI / 2)).
(** lines 160-167 *)
Definition abc_to_dq0 (ua ub uc wt : R) : R * R * R :=
  let Us := cmul (cmul (RtoCx (2 / 3))
              (cadd (cadd (RtoCx ua) (cmul (RtoCx ub) (cexp ((2 / 3) * PI))))
                    (cmul (RtoCx uc) (cexp (- (2 / 3) * PI))))) (cexp (- wt)) in
  (re Us, im Us, (1 / 3) * (ua + ub + uc)).
(** lines 169-175 *)
Definition dq0_to_abc (ud uq u0 wt : R) : R * R * R :=
  let ua := ud * cos wt - uq * sin wt + u0 in
  let ub := ud * cos (wt - (2 / 3) * PI) - uq * sin (wt - (2 / 3) * PI) + u0 in
  let uc := ud * cos (wt + (2 / 3) * PI) - uq * sin (wt + (2 / 3) * PI) + u0 in
  (ua, ub, uc).
(** lines 177-192 *)
Definition alpha_beta_to_d_q (ualpha ubeta wt : R) : R * R :=
  let Us := cmul (cadd (RtoCx ualpha) (cmul (Cx 0 1) (RtoCx ubeta))) (cexp (- wt)) in
  (re Us, im Us).
(** lines 194-204 *)
Definition phasor_to_symmetrical (upha uphb uphc : cx) : cx * cx * cx :=
  let a := cexp ((2 / 3) * PI) in
  let aa := cexp ((4 / 3) * PI) in
  let u0 := cscale (1 / 3) (cadd (cadd upha uphb) uphc) in
  let u1 := cscale (1 / 3) (cadd (cadd upha (cmul a uphb)) (cmul aa uphc)) in
  let u2 := cscale (1 / 3) (cadd (cadd upha (cmul aa uphb)) (cmul a uphc)) in
  (u0, u1, u2).
(** lines 206-210, 212-216, 218-222 *)
Definition phasor_to_zero_sequence (a b c : cx) : cx * cx * cx :=
  let '(u0, u1, u2) := phasor_to_symmetrical a b c in (u0, u0, u0).
Definition phasor_to_positive_sequence (a b c : cx) : cx * cx * cx :=
  let '(u0, u1, u2) := phasor_to_symmetrical a b c in
  (u1, cmul u1 (cexp ((4 / 3) * PI)), cmul u1 (cexp ((2 / 3) * PI))).
Definition phasor_to_negative_sequence (a b c : cx) : cx * cx * cx :=
  let '(u0, u1, u2) := phasor_to_symmetrical a b c in
  (u2, cmul u2 (cexp ((4 / 3) * PI)), cmul u2 (cexp ((2 / 3) * PI))).
(** lines 224-236: the assertion low_limit < high_limit is commented out *)
Definition limit_complex (z : cx) (low high : R) : cx :=
  let r := Rmin (Rmax (cabs z) low) high in crect r (cphase z).
