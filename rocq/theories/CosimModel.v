(** Model of the co-simulation interface: the loop-mode branch of run_simulation,
    /repo/pvder/dynamic_simulation.py:931-977, with update_grid_measurements, lines
    980-996, on top of SimModel.v. *)
From Coq Require Import String.
From Verif Require Import Base EventsModel SimModel.
Open Scope Q_scope.

(** What a caller can pass as a phase voltage: a complex number, another number, or
    something that is not a number (None when the argument is omitted). *)
Inductive varg (V : Type) := AComplex (v : V) | AReal (v : V) | ANone.
Arguments AComplex {V} _. Arguments AReal {V} _. Arguments ANone {V}.
(** the attributes gridVoltagePhaseA/B/C of the DER; they hold whatever was assigned *)
Record dvolt (V : Type) := DVolt { att_a : varg V; att_b : varg V; att_c : varg V }.
Arguments DVolt {V} _ _ _. Arguments att_a {V} _. Arguments att_b {V} _. Arguments att_c {V} _.

(** Ub_calc / Uc_calc of a stored value; only reached with a complex phase A *)
Definition rotated {V} (f : V -> V) (x : varg V) : varg V :=
  match x with AComplex v | AReal v => AComplex (f v) | ANone => ANone end.

(** update_grid_measurements, lines 980-996 *)
Definition update_grid_measurements {V} (o : ops V) (m : mtype) (dv : dvolt V) (a b c : varg V) : dvolt V :=
  match m with
  | MThree | MThreeNV | MNumba | MThreeC => DVolt a b c
  | MBal => DVolt a (rotated (o_b o) a) (rotated (o_c o) a)
  | MSingle | MSingleC => DVolt a (att_b dv) (att_c dv)
  end.

(** One call of run_simulation in loop mode: the arguments; what odeint returns for
    the phase voltages in effect, the initial states and the times; the DER as the
    solver leaves it (its voltages and its mode are overwritten below); the
    stand-alone grid. *)
Record call (V : Type) := Call {
  c_va : varg V; c_vb : varg V; c_vc : varg V; c_y0 : pyarg V; c_t : pyarg V;
  c_solver : V * V * V -> list V -> list Q -> list (list V);
  c_post : der V; c_grid : gridf V }.
Arguments Call {V} _ _ _ _ _ _ _ _. Arguments c_va {V} _. Arguments c_vb {V} _. Arguments c_vc {V} _.
Arguments c_y0 {V} _. Arguments c_t {V} _. Arguments c_solver {V} _ _ _ _. Arguments c_post {V} _. Arguments c_grid {V} _.

(** a stored voltage used as a number: None in arithmetic is TypeError *)
Definition as_number {V} (x : varg V) : res V :=
  match x with AComplex v | AReal v => Ok v | ANone => Raise TypeError end.
(** The voltages the derivative function reads, va_calc, vb_calc, vc_calc,
    DER_utilities.py:189-233.  A stand-alone DER does not read the attributes (the
    values below are then never used); a single-phase DER reads phase A only. *)
Definition volts_read {V} (m : mtype) (alone : bool) (d : der V) (dv : dvolt V) : res (V * V * V) :=
  if alone then Ok (d_va d, d_vb d, d_vc d) else
  match m with
  | MSingle | MSingleC => bindR (as_number (att_a dv)) (fun a => Ok (a, d_vb d, d_vc d))
  | _ => bindR (as_number (att_a dv)) (fun a => bindR (as_number (att_b dv)) (fun b =>
         bindR (as_number (att_c dv)) (fun c => Ok (a, b, c))))
  end.
Definition with_volts {V} (d : der V) (alone : bool) (v : V * V * V) : der V :=
  let '(a, b, c) := v in Der V (d_state d) (d_vdc d) (d_misc d) a b c alone.

(** run_simulation, lines 931-950 and 972-977, loop mode.  State: the simulation and
    the DER's voltage attributes.  A failure while collecting (which does not happen
    when the solver returns one full row per time) leaves the simulation as it was. *)
Definition cosim_call {V} (o : ops V) (alone : bool) (c : call V) (w : sim V * dvolt V)
  : (sim V * dvolt V) * res unit :=
  let '(s, dv) := w in
  match c_va c, c_y0 c, c_t c with
  | AComplex va, PList y, PTimes ts =>
    let dv' := update_grid_measurements o (typ s) dv (c_va c) (c_vb c) (c_vc c) in
    match ts with
    | [] => ((s, dv'), Raise IndexError)
    | t0 :: _ =>
      let s1 := if qeq t0 0 then Sim V (typ s) (at_ s) ts (tt_ s) (ut_ s) (loop_mode s) (collect_sol s) else s in
      match volts_read (typ s) alone (c_post c) dv' with
      | Raise e => ((s1, dv'), Raise e)
      | Ok v =>
        match finish_run o (with_volts (c_post c) alone v) (c_grid c) (c_solver c v y ts) ts s1 with
        | Raise e => ((s1, dv'), Raise e)
        | Ok s2 => ((s2, dv'), Ok tt)
        end
      end
    end
  | _, _, _ => ((s, dv), Raise ValueError)
  end.

(** A caller's session: calls, with reads of the trajectories in between; it stops at
    the first exception. *)
Inductive cop (V : Type) := CCall (c : call V) | CGet.
Arguments CCall {V} _. Arguments CGet {V}.
Fixpoint session {V} (o : ops V) (alone : bool) (h : list (cop V)) (w : sim V * dvolt V) : res (sim V * dvolt V) :=
  match h with
  | [] => Ok w
  | CCall c :: rest => let '(w1, r) := cosim_call o alone c w in bindR r (fun _ => session o alone rest w1)
  | CGet :: rest => let '(s1, r) := get_trajectories (fst w) in bindR r (fun _ => session o alone rest (s1, snd w))
  end.
