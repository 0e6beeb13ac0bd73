(** Model of the phasor utilities of /repo/pvder/utility_functions.py over exact
    reals.  pow(math.e, 1j*x) and np.power(np.e, 1j*x) are e^(jx) = [cexp x]. *)
From Verif Require Import RBase.

(** cmath.phase: the argument in (-pi, pi], 0 for the zero phasor. *)
Definition cphase (z : cx) : R :=
  if rlt 0 (re z) then atan (im z / re z)
  else if rlt (re z) 0 then
    if rle 0 (im z) then atan (im z / re z) + PI else atan (im z / re z) - PI
  else if rlt 0 (im z) then PI / 2
  else if rlt (im z) 0 then - (PI / 2)
  else 0.
(** cmath.rect *)
Definition crect (r phi : R) : cx := cscale r (cexp phi).

(** lines 109-116, 119-125 *)
Definition Ub_calc (u : cx) : cx := cmul u (cexp (- (2/3) * PI)).
Definition Uc_calc (u : cx) : cx := cmul u (cexp ((2/3) * PI)).

(** lines 84-90, 92-97, 100-105 *)
Definition Urms_calc (a b c : cx) : R := sqrt ((cabs a ^ 2 + cabs b ^ 2 + cabs c ^ 2) / 3) / sqrt 2.
Definition Urms_min_calc (a b c : cx) : R := Rmin (Rmin (cabs a) (cabs b)) (cabs c) / sqrt 2.
Definition Urms_calc_1phase (a : cx) : R := cabs a / sqrt 2.

(** lines 41-47; [None] stands for the ZeroDivisionError of a zero average *)
Definition Uunbalance_calc (a b c : R) : option R :=
  let avg := (a + b + c) / 3 in
  if req avg 0 then None
  else Some ((Rmax (Rmax a b) c - Rmin (Rmin a b) c) / avg).

(** x % 360 for floats: the representative in [0,360) *)
Definition py_mod (x m : R) : R := x - m * IZR (Int_part (x / m)).
Definition degrees (x : R) : R := x * 180 / PI.
Definition radians (x : R) : R := x * PI / 180.
(** lines 128-137 *)
Definition relative_phase_calc (u1 u2 : cx) (deg : bool) : R :=
  if deg then py_mod (degrees (cphase u1 - cphase u2)) 360
  else radians (py_mod (degrees (cphase u1 - cphase u2)) 360).

(** lines 158-164, and per phase 141-155 *)
Definition phasor_to_time_1phase (u : cx) (w t : R) : R :=
  cabs u * re (cexp (w * t + cphase u - PI / 2)).
Definition phasor_to_time (a b c : cx) (w t : R) : R * R * R :=
  (phasor_to_time_1phase a w t, phasor_to_time_1phase b w t, phasor_to_time_1phase c w t).

(** lines 168-177 *)
Definition abc_to_dq0 (ua ub uc wt : R) : R * R * R :=
  let Us := cscale (2/3) (cmul (cadd (cadd (RtoCx ua) (cscale ub (cexp ((2/3) * PI))))
                                     (cscale uc (cexp (- (2/3) * PI)))) (cexp (- wt))) in
  (re Us, im Us, 1/3 * (ua + ub + uc)).
(** lines 180-188 *)
Definition dq0_to_abc (ud uq u0 wt : R) : R * R * R :=
  (ud * cos wt - uq * sin wt + u0,
   ud * cos (wt - (2/3) * PI) - uq * sin (wt - (2/3) * PI) + u0,
   ud * cos (wt + (2/3) * PI) - uq * sin (wt + (2/3) * PI) + u0).
(** lines 191-209 *)
Definition alpha_beta_to_d_q (ua ub wt : R) : R * R :=
  let Us := cmul (Cx ua ub) (cexp (- wt)) in (re Us, im Us).

(** lines 212-222 *)
Definition phasor_to_symmetrical (a b c : cx) : cx * cx * cx :=
  let al := cexp ((2/3) * PI) in
  let aa := cexp ((4/3) * PI) in
  (cscale (1/3) (cadd (cadd a b) c),
   cscale (1/3) (cadd (cadd a (cmul al b)) (cmul aa c)),
   cscale (1/3) (cadd (cadd a (cmul aa b)) (cmul al c))).
(** lines 226-250 *)
Definition phasor_to_zero_sequence (a b c : cx) : cx * cx * cx :=
  let '(u0, u1, u2) := phasor_to_symmetrical a b c in (u0, u0, u0).
Definition phasor_to_positive_sequence (a b c : cx) : cx * cx * cx :=
  let '(u0, u1, u2) := phasor_to_symmetrical a b c in
  (u1, cmul u1 (cexp ((4/3) * PI)), cmul u1 (cexp ((2/3) * PI))).
Definition phasor_to_negative_sequence (a b c : cx) : cx * cx * cx :=
  let '(u0, u1, u2) := phasor_to_symmetrical a b c in
  (u2, cmul u2 (cexp ((4/3) * PI)), cmul u2 (cexp ((2/3) * PI))).

(** lines 284-298; the assertion low < high raises AssertionError *)
Definition limit_complex (z : cx) (low high : R) : res cx :=
  if rlt low high
  then Ok (crect (Rmin (Rmax (cabs z) low) high) (cphase z))
  else Raise Base.AssertionError.

(** Angle and frequency seen by the DER.
    DER_utilities.py:287-292 (we_calc) *)
Definition we_calc (Kp_PLL vd xPLL : R) : R := Kp_PLL * vd + xPLL + 2 * PI * 60.
(** update_inverter_frequency, DER_components_three_phase.py:248-261 *)
Definition vd_three_phase (va vb vc : cx) (w t wte : R) : R :=
  let '(a, b, c) := phasor_to_time va vb vc w t in
  let '(vd, _, _) := abc_to_dq0 a b c wte in vd.
(** update_inverter_frequency, DER_components_single_phase.py:206-226 *)
Definition vd_single_phase (va : cx) (w t wte : R) : R :=
  let alpha := phasor_to_time_1phase va w t in
  let beta := phasor_to_time_1phase (cmul va (cexp (- (PI / 2)))) w t in
  fst (alpha_beta_to_d_q alpha beta wte).

(** utility_functions.py:300-313, limit_complex_time_series: the arrays of
    magnitudes and angles, clipped against arrays of the same length *)
Fixpoint zip_with {A B C} (f : A -> B -> C) (l : list A) (l' : list B) : list C :=
  match l, l' with a :: r, b :: r' => f a b :: zip_with f r r' | _, _ => [] end.
Definition np_full (n : nat) (x : R) : list R := repeat x n.
Definition limit_complex_time_series (z : list cx) (low high : R) : res (list cx) :=
  if rlt low high then
    let r := map cabs z in
    let phi := map cphase z in
    let r' := zip_with Rmin (zip_with Rmax r (np_full (length r) low)) (np_full (length r) high) in
    Ok (zip_with (fun r p => Cx (r * cos p) (r * sin p)) r' phi)
  else Raise Base.AssertionError.
