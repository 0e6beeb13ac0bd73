(** Model of the current-reference ramp limiter of /repo/pvder/DER_utilities.py
    (get_ramp_limited_iref 353-378, get_iref_actual 380-401) and of its callers
    update_iref. *)
From Verif Require Import Base.

(** math.copysign(x, y) on finite floats, for a zero [y] obtained by subtracting
    equal numbers, i.e. +0.0. *)
Definition copysign (x y : Q) : Q := if qlt y 0 then - py_abs x else py_abs x.

(** One component of get_iref_actual, lines 384-400 (both branches of the [if]
    are the same expression).  [dt] is t - self.t_iref; Python raises
    ZeroDivisionError for dt = 0. *)
Definition comp_actual (dt grad cmd prev : Q) : res Q :=
  let d := cmd - prev in
  if qeq dt 0 then Raise ZeroDivisionError
  else Ok (prev + copysign (py_min (py_abs d / dt) grad * dt) d).

(** A phasor: real and imaginary part. *)
Definition cplx := (Q * Q)%type.
Record ramp := Ramp {
  p_tref : Q;                 (* t_iref *)
  p_ref : cplx;               (* ia_ref *)
  p_gR : Q; p_gI : Q;         (* iR_ramp_up_max_gradient, iI_ramp_up_max_gradient *)
  p_limiter : bool }.         (* current_gradient_limiter *)

Definition get_iref_actual (s : ramp) (t : Q) (cmd prev : cplx) : res cplx :=
  let dt := t - p_tref s in
  bindR (comp_actual dt (p_gR s) (fst cmd) (fst prev)) (fun a =>
  bindR (comp_actual dt (p_gI s) (snd cmd) (snd prev)) (fun b => Ok (a, b))).

(** get_ramp_limited_iref; [ia] is the measured inverter current self.ia. *)
Definition get_ramp_limited_iref (s : ramp) (t : Q) (cmd ia : cplx) : res cplx :=
  if qlt (p_tref s) t then get_iref_actual s t cmd (p_ref s)
  else if qlt t (p_tref s) then get_iref_actual s t cmd ia
  else Ok (p_ref s).

(** One evaluation: time, commanded current (ia_ref_calc() /
    ia_ref_activepower_control()) and measured current. *)
Record rin := Rin { i_t : Q; i_cmd : cplx; i_ia : cplx }.

(** The update_iref methods: [sets_t] says whether the method stores the time
    (three_phase.py:231-246, three_phase_balanced.py:230-244,
    three_phase_no_Vrms_filter.py:236-241, three_phase_numba.py:385-386: yes;
    single_phase.py:195-204, single_phase_constant_Vdc.py:194-202: no).
    [from] is the time from which the limiter acts (0.1 in
    three_phase_constant_Vdc.py:250, absent otherwise). *)
Definition update_iref (sets_t : bool) (from : option Q) (s : ramp) (x : rin) : ramp * res unit :=
  let act := match from with None => true | Some t0 => qlt t0 (i_t x) end in
  let r := if (p_limiter s && act)%bool then get_ramp_limited_iref s (i_t x) (i_cmd x) (i_ia x)
           else Ok (i_cmd x) in
  match r with
  | Raise e => (s, Raise e)
  | Ok v => (Ramp (if sets_t then i_t x else p_tref s) v (p_gR s) (p_gI s) (p_limiter s), Ok tt)
  end.

Definition update_iref_three_phase := update_iref true None.
Definition update_iref_three_phase_constant_Vdc := update_iref true (Some (1#10)).
Definition update_iref_single_phase := update_iref false None.

Fixpoint ramp_run (step : ramp -> rin -> ramp * res unit) (s : ramp) (xs : list rin) : ramp * res unit :=
  match xs with
  | [] => (s, Ok tt)
  | x :: xs' => match step s x with
                | (s1, Ok _) => ramp_run step s1 xs'
                | (s1, Raise e) => (s1, Raise e)
                end
  end.
