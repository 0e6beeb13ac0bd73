(** Model of the right-hand side of the three-phase DER with constant DC voltage,
    /repo/pvder/DER_components_three_phase_constant_Vdc.py, over exact reals.  The
    shared equations and the simplifications are those of ODEModel.v. *)
From Verif Require Import RBase PhasorModel PVModel ODEModel.
Open Scope R_scope.

(** vta_calc .. vtc_calc (DER_utilities.py:165-186) with the constant Vdc *)
Definition vt3c_of (p : prm) (e : env) (y : st) k : cx := vt_calc p (e_Vconst e) (u_of y k) (x_of y k).
(** S_calc, constant_Vdc.py:74-80; S_PCC_calc (84-90) is S3_pcc *)
Definition S3c_inv (p : prm) (e : env) (y : st) : cx := sum3 (fun k => S_ph (vt3c_of p e y k) (i_of y k)).
(** update_iref, constant_Vdc.py:246-260: ia_ref_activepower_control; phases b and c
    are turned copies (DER_utilities.py:133-161) *)
Definition iref3c (p : prm) (e : env) (y : st) : cx :=
  ia_ref_activepower p (Ppv_of p e (e_Vconst e)) (re (S3c_inv p e y)) (y XP) (e_Qref e) (y XQ) (im (S3_pcc p e y)).
Definition iref3c_test (p : prm) (e : env) (y : st) : cx :=
  ia_ref_activepower p (eff_Ppv e (Ppv_of p e (e_Vconst e))) (re (S3c_inv p e y)) (y XP) (eff_Qref e) (y XQ) (im (S3_pcc p e y)).
(** ODE_model, constant_Vdc.py:278-456 (22 states; dVdc = 0.0, line 426, is not
    part of the vector) *)
Definition ode3c (p : prm) (e : env) (y : st) (v : var) : R :=
  let winv := we_calc (Kp_PLL p) (vd3 p e y) (y XPLL) in
  let perr := eff_Ppv e (Ppv_of p e (e_Vconst e)) - re (S3c_inv p e y) in
  match v with
  | P k c => d_comp p winv (i_of y k) (v3_of p e y k) (vt3c_of p e y k) (u_of y k) (x_of y k)
               (eff_iref e (rot k (iref3c p e y))) c
  | XP => aw (i_sat p (iref3c_test p e y)) (Ki_P p * perr) (y XP) (Ki_P p * perr)
  | XQ => dxQ p (iref3c_test p e y) (eff_Qref e) (y XQ) (im (S3_pcc p e y))
  | XPLL => Ki_PLL p * vd3 p e y
  | WTE => winv
  | _ => 0
  end.
