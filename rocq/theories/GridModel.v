(** Model of the stand-alone grid source, pvder/grid_components.py, and of the
    grid-side time series of pvder/dynamic_simulation.py.  A call of
    events.grid_events(t) is represented by its result (complex voltage in per unit of
    the rated voltage, angular frequency): the theorems hold for every result. *)
From Verif Require Import RBase PhasorModel ODEModel.
From Coq Require Import List.
Import ListNotations.
Open Scope R_scope.

(** grid_components.py:13,30: Vbase, Vgridrated *)
Definition Vbase_grid : R := 500.
Definition Vgridrated : R := 20415.

(** Attributes of a Grid object, lines 31-32 and 47-74. *)
Record gridst := GridSt {
  g_rb : R; g_rc : R;                       (* unbalance_ratio_b, unbalance_ratio_c *)
  Vagrid : cx; Vbgrid : cx; Vcgrid : cx; g_w : R;
  g_vag : cx; g_vbg : cx; g_vcg : cx;
  t_vprev : R; t_fprev : R }.               (* _t_voltage_previous, _t_frequency_previous *)

(** __init__, lines 67-75; [ev] is the result of events.grid_events(0.0).
    Z2 and names are not modelled here. *)
Definition grid_init (rb rc : R) (ev : cx * R) : gridst :=
  let va := cscale (Vgridrated / Vbase_grid) (fst ev) in
  let vb := Ub_calc (cscale rb va) in let vc := Uc_calc (cscale rc va) in
  GridSt rb rc va vb vc (snd ev) va vb vc 0 0.

(** steady_state_model, lines 91-114; [ev] is the result of events.grid_events(t). *)
Definition steady_state_model (s : gridst) (t : R) (ev : cx * R) : gridst :=
  let va := cscale (Vgridrated / Vbase_grid) (fst ev) in
  let s1 := if rlt 0 (cabs (csub (Vagrid s) va)) && rle (t_vprev s) t
            then GridSt (g_rb s) (g_rc s) va (Ub_calc (cscale (g_rb s) va)) (Uc_calc (cscale (g_rc s) va)) (g_w s)
                   (g_vag s) (g_vbg s) (g_vcg s) t (t_fprev s)
            else s in
  let s2 := if rlt 0 (Rabs (g_w s1 - snd ev)) && rle (t_fprev s1) t
            then GridSt (g_rb s1) (g_rc s1) (Vagrid s1) (Vbgrid s1) (Vcgrid s1) (snd ev)
                   (g_vag s1) (g_vbg s1) (g_vcg s1) (t_vprev s1) t
            else s1 in
  GridSt (g_rb s2) (g_rc s2) (Vagrid s2) (Vbgrid s2) (Vcgrid s2) (g_w s2) (Vagrid s2) (Vbgrid s2) (Vcgrid s2) (t_vprev s2) (t_fprev s2).

(** A history of calls (time, result of grid_events), oldest first. *)
Definition run_grid (s : gridst) (l : list (R * (cx * R))) : gridst :=
  fold_left (fun s c => steady_state_model s (fst c) (snd c)) l s.

(** time_series_standalone_grid, dynamic_simulation.py:472-490: grid phasors at one
    stored time point, and the attributes of the grid object left behind. *)
Definition ts_grid_point (s : gridst) (ev : cx * R) : gridst :=
  let va := cscale (Vgridrated / Vbase_grid) (fst ev) in
  GridSt (g_rb s) (g_rc s) (Vagrid s) (Vbgrid s) (Vcgrid s) (snd ev)
    va (Ub_calc (cscale (g_rb s) va)) (Uc_calc (cscale (g_rc s) va)) (t_vprev s) (t_fprev s).

(** time_series_S, dynamic_simulation.py:594-611: S_G_t at one time point. *)
Definition iG (p : prm) (Zl v i : cx) : cx := conj (cneg (cscale (1 / a_tr p) (csub i (cdiv v Zl)))).
Definition S_G_t_single (p : prm) (Zl vg v i : cx) : cx := cmul (cscale (1/2) (iG p Zl v i)) vg.
Definition S_G_t_three (p : prm) (Zl vag vbg vcg va vb vc ia ib ic : cx) : cx :=
  cadd (cadd (cmul (cscale (1/2) (iG p Zl va ia)) vag) (cmul (iG p Zl vb ib) vbg)) (cmul (iG p Zl vc ic) vcg).
(** S_G_calc of the three-phase models, three_phase.py:101-104 *)
Definition S_G_three (p : prm) (Zl vag vbg vcg va vb vc ia ib ic : cx) : cx :=
  cscale (1/2) (cadd (cadd (cmul (iG p Zl va ia) vag) (cmul (iG p Zl vb ib) vbg)) (cmul (iG p Zl vc ic) vcg)).
(** S_t, S_PCC_t and S_load1_t at one time point, lines 597-598, 602, 605-606, 611. *)
Definition S_t_three (va vb vc ia ib ic : cx) : cx :=
  cscale (1/2) (cadd (cadd (cmul va (conj ia)) (cmul vb (conj ib))) (cmul vc (conj ic))).
Definition S_load1_t_three (Zl va vb vc : cx) : cx :=
  cscale (1/2) (cadd (cadd (cmul va (conj (cneg (cdiv va Zl)))) (cmul vb (conj (cneg (cdiv vb Zl))))) (cmul vc (conj (cneg (cdiv vc Zl))))).
