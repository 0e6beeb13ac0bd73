(** Model of /repo/pvder/dynamic_simulation.py (DynamicSimulation) and of the
    solver wrapper /repo/pvder/simulation_utilities.py:362-503, together with
    the state-vector conventions of the seven DER model classes.

    Values are of an arbitrary type [V] (numbers, real or complex, are never
    inspected here); times are rationals.  The attributes of the Python object
    are a map from attribute names to numpy arrays, so that reading an
    attribute that was never written is AttributeError, and code that writes
    one name and reads another behaves as in Python. *)
From Coq Require Import String.
From Verif Require Import Base EventsModel.
Open Scope string_scope.
Open Scope Q_scope.

(* ------------------------------------------------------------------ *)
(** * DER model types and their state vectors *)

(** The seven class names, templates.py:8-9. *)
Inductive mtype := MSingle | MSingleC | MThree | MThreeNV | MThreeC | MBal | MNumba.

(** templates.py:8-9. *)
Definition is_three (m : mtype) : bool :=
  match m with MSingle | MSingleC => false | _ => true end.

(** templates.py:18,35,48,64,79,96,111: basic_specs['n_ODE']. *)
Definition n_ODE (m : mtype) : nat :=
  match m with
  | MSingle => 11 | MSingleC => 10 | MThree => 24 | MThreeNV => 23
  | MNumba => 23 | MBal => 11 | MThreeC => 22
  end.

(** The instance attributes of a DER that hold its state.  The complex
    attribute self.ia is represented by its two components "iaR" (self.ia.real)
    and "iaI" (self.ia.imag), likewise for the others. *)
Definition dstate (V : Type) := string -> option V.

(** y0 of DER_components_single_phase.py:65-69,
    DER_components_single_phase_constant_Vdc.py:63-67,
    DER_components_three_phase.py:62-68,
    DER_components_three_phase_no_Vrms_filter.py:62-68,
    DER_components_three_phase_constant_Vdc.py:61-68,
    DER_components_three_phase_balanced.py:67-71,
    DER_components_three_phase_numba.py:290-296. *)
Definition y0_names (m : mtype) : list string :=
  match m with
  | MSingle => ["iaR";"iaI";"xaR";"xaI";"uaR";"uaI";"Vdc";"xDC";"xQ";"xPLL";"wte"]
  | MSingleC => ["iaR";"iaI";"xaR";"xaI";"uaR";"uaI";"xP";"xQ";"xPLL";"wte"]
  | MThree => ["iaR";"iaI";"xaR";"xaI";"uaR";"uaI";
               "ibR";"ibI";"xbR";"xbI";"ubR";"ubI";
               "icR";"icI";"xcR";"xcI";"ucR";"ucI";
               "Vdc";"xDC";"xQ";"xPLL";"wte";"Vrms_filter"]
  | MThreeNV => ["iaR";"iaI";"xaR";"xaI";"uaR";"uaI";
               "ibR";"ibI";"xbR";"xbI";"ubR";"ubI";
               "icR";"icI";"xcR";"xcI";"ucR";"ucI";
               "Vdc";"xDC";"xQ";"xPLL";"wte"]
  | MThreeC => ["iaR";"iaI";"xaR";"xaI";"uaR";"uaI";
               "ibR";"ibI";"xbR";"xbI";"ubR";"ubI";
               "icR";"icI";"xcR";"xcI";"ucR";"ucI";
               "xP";"xQ";"xPLL";"wte"]
  | MBal => ["iaR";"iaI";"xaR";"xaI";"uaR";"uaI";"Vdc";"xDC";"xQ";"xPLL";"wte"]
  | MNumba => ["iaR";"iaI";"xaR";"xaI";"uaR";"uaI";
               "ibR";"ibI";"xbR";"xbI";"ubR";"ubI";
               "icR";"icI";"xcR";"xcI";"ucR";"ucI";
               "Vdc";"xDC";"xQ";"xPLL";"wte"]
  end.

Fixpoint mapM {A B} (f : A -> res B) (l : list A) : res (list B) :=
  match l with
  | [] => Ok []
  | a :: l' => bindR (f a) (fun b => bindR (mapM f l') (fun r => Ok (b :: r)))
  end.

Definition der_y0 {V} (m : mtype) (d : dstate V) : res (list V) :=
  mapM (fun n => match d n with Some v => Ok v | None => Raise AttributeError end)
       (y0_names m).

(** The names on the left of [... = y] in ODE_model:
    DER_components_single_phase.py:238-239,
    DER_components_single_phase_constant_Vdc.py:236,
    DER_components_three_phase.py:266-269,
    DER_components_three_phase_no_Vrms_filter.py:265-268,
    DER_components_three_phase_constant_Vdc.py:288-291,
    DER_components_three_phase_balanced.py:268-269; the numba class indexes y
    with the constants of DER_components_three_phase_numba.py:25-47. *)
Definition ode_names (m : mtype) : list string :=
  match m with
  | MSingle => ["iaR";"iaI";"xaR";"xaI";"uaR";"uaI";"Vdc";"xDC";"xQ";"xPLL";"wte"]
  | MSingleC => ["iaR";"iaI";"xaR";"xaI";"uaR";"uaI";"xP";"xQ";"xPLL";"wte"]
  | MThree => ["iaR";"iaI";"xaR";"xaI";"uaR";"uaI";
               "ibR";"ibI";"xbR";"xbI";"ubR";"ubI";
               "icR";"icI";"xcR";"xcI";"ucR";"ucI";
               "Vdc";"xDC";"xQ";"xPLL";"wte";"Vrms_filter"]
  | MThreeNV | MNumba =>
              ["iaR";"iaI";"xaR";"xaI";"uaR";"uaI";
               "ibR";"ibI";"xbR";"xbI";"ubR";"ubI";
               "icR";"icI";"xcR";"xcI";"ucR";"ucI";
               "Vdc";"xDC";"xQ";"xPLL";"wte"]
  | MThreeC => ["iaR";"iaI";"xaR";"xaI";"uaR";"uaI";
               "ibR";"ibI";"xbR";"xbI";"ubR";"ubI";
               "icR";"icI";"xcR";"xcI";"ucR";"ucI";
               "xP";"xQ";"xPLL";"wte"]
  | MBal => ["iaR";"iaI";"xaR";"xaI";"uaR";"uaI";"Vdc";"xDC";"xQ";"xPLL";"wte"]
  end.

Definition put {V} (k : string) (v : V) (d : dstate V) : dstate V :=
  fun k' => if String.eqb k k' then Some v else d k'.

Fixpoint assign {V} (ns : list string) (vs : list V) (d : dstate V) : dstate V :=
  match ns, vs with
  | n :: ns', v :: vs' => assign ns' vs' (put n v d)
  | _, _ => d
  end.

(** Unpacking y and update_inverter_states (e.g. three_phase.py:149-175): a
    wrong number of values is ValueError in Python for the six classes that
    unpack; the numba class indexes y, so too short a vector is IndexError and
    surplus entries are ignored. *)
Definition ode_unpack {V} (m : mtype) (y : list V) (d : dstate V) : res (dstate V) :=
  match m with
  | MNumba => if Nat.ltb (List.length y) 23 then Raise IndexError
              else Ok (assign (ode_names m) y d)
  | _ => if Nat.eqb (List.length y) (List.length (ode_names m))
         then Ok (assign (ode_names m) y d) else Raise ValueError
  end.

(** [result] of ODE_model: single_phase.py:322-332, single_phase_constant_Vdc
    .py:318-327, three_phase.py:433-455, no_Vrms_filter.py:430-452,
    constant_Vdc.py:452-456, balanced.py:353-363, numba.py:486-508. *)
Definition result_names (m : mtype) : list string :=
  match m with
  | MSingle => ["diaR";"diaI";"dxaR";"dxaI";"duaR";"duaI";"dVdc";"dxDC";"dxQ";"dxPLL";"dwte"]
  | MSingleC => ["diaR";"diaI";"dxaR";"dxaI";"duaR";"duaI";"dxP";"dxQ";"dxPLL";"dwte"]
  | MThree => ["diaR";"diaI";"dxaR";"dxaI";"duaR";"duaI";
               "dibR";"dibI";"dxbR";"dxbI";"dubR";"dubI";
               "dicR";"dicI";"dxcR";"dxcI";"ducR";"ducI";
               "dVdc";"dxDC";"dxQ";"dxPLL";"dwte";"dVrms_filter"]
  | MThreeNV | MNumba =>
              ["diaR";"diaI";"dxaR";"dxaI";"duaR";"duaI";
               "dibR";"dibI";"dxbR";"dxbI";"dubR";"dubI";
               "dicR";"dicI";"dxcR";"dxcI";"ducR";"ducI";
               "dVdc";"dxDC";"dxQ";"dxPLL";"dwte"]
  | MThreeC => ["diaR";"diaI";"dxaR";"dxaI";"duaR";"duaI";
               "dibR";"dibI";"dxbR";"dxbI";"dubR";"dubI";
               "dicR";"dicI";"dxcR";"dxcI";"ducR";"ducI";
               "dxP";"dxQ";"dxPLL";"dwte"]
  | MBal => ["diaR";"diaI";"dxaR";"dxaI";"duaR";"duaI";"dVdc";"dxDC";"dxQ";"dxPLL";"dwte"]
  end.

(** DER_check_and_initialize.py:518-567: varInd[entry] is the position in
    state_list (note "Vrms", not "Vrms_filter", for the three-phase model). *)
Definition jac_names (m : mtype) : list string :=
  match m with
  | MSingle => ["iaR";"iaI";"xaR";"xaI";"uaR";"uaI";"Vdc";"xDC";"xQ";"xPLL";"wte"]
  | MSingleC => ["iaR";"iaI";"xaR";"xaI";"uaR";"uaI";"xP";"xQ";"xPLL";"wte"]
  | MThree => ["iaR";"iaI";"xaR";"xaI";"uaR";"uaI";
               "ibR";"ibI";"xbR";"xbI";"ubR";"ubI";
               "icR";"icI";"xcR";"xcI";"ucR";"ucI";
               "Vdc";"xDC";"xQ";"xPLL";"wte";"Vrms"]
  | MThreeNV | MNumba =>
              ["iaR";"iaI";"xaR";"xaI";"uaR";"uaI";
               "ibR";"ibI";"xbR";"xbI";"ubR";"ubI";
               "icR";"icI";"xcR";"xcI";"ucR";"ucI";
               "Vdc";"xDC";"xQ";"xPLL";"wte"]
  | MThreeC => ["iaR";"iaI";"xaR";"xaI";"uaR";"uaI";
               "ibR";"ibI";"xbR";"xbI";"ubR";"ubI";
               "icR";"icI";"xcR";"xcI";"ucR";"ucI";
               "xP";"xQ";"xPLL";"wte"]
  | MBal => ["iaR";"iaI";"xaR";"xaI";"uaR";"uaI";"Vdc";"xDC";"xQ";"xPLL";"wte"]
  end.

(** The keys of initial_states in templates.py:27-30,43-45,56-60,72-76,88-92,
    104-107,118-122; check_basic_specs (DER_components.py:263-283) compares
    their number with n_ODE and logs an error when they differ. *)
Definition template_initial_states (m : mtype) : list string :=
  match m with
  | MSingle => ["iaR";"iaI";"xaR";"xaI";"uaR";"uaI";"Vdc";"xDC";"xQ";"xPLL";"wte"]
  | MSingleC => ["iaR";"iaI";"xaR";"xaI";"uaR";"uaI";"xP";"xQ";"xPLL";"wte"]
  | MThree | MThreeNV | MNumba =>
              ["iaR";"iaI";"xaR";"xaI";"uaR";"uaI";
               "ibR";"ibI";"xbR";"xbI";"ubR";"ubI";
               "icR";"icI";"xcR";"xcI";"ucR";"ucI";
               "Vdc";"xDC";"xQ";"xPLL";"wte"]
  | MThreeC => ["iaR";"iaI";"xaR";"xaI";"uaR";"uaI";
               "ibR";"ibI";"xbR";"xbI";"ubR";"ubI";
               "icR";"icI";"xcR";"xcI";"ucR";"ucI";
               "xP";"xQ";"xPLL";"wte"]
  | MBal => ["iaR";"iaI";"xaR";"xaI";"uaR";"uaI";"Vdc";"xDC";"xQ";"xPLL";"wte"]
  end.

(* ------------------------------------------------------------------ *)
(** * numpy arrays and the attribute map of the simulation object *)

(** np.array(scalar) is a zero-dimensional array: it cannot be indexed or
    sliced and has no len(). *)
Inductive arr (V : Type) := A0 (v : V) | A1 (l : list V).
Arguments A0 {V} _.
Arguments A1 {V} _.

(** a[-1] *)
Definition a_last {V} (a : arr V) : res V :=
  match a with
  | A0 _ => Raise IndexError
  | A1 l => match rev l with v :: _ => Ok v | [] => Raise IndexError end
  end.
(** len(a) *)
Definition a_len {V} (a : arr V) : res nat :=
  match a with A0 _ => Raise TypeError | A1 l => Ok (List.length l) end.
(** a[1:] *)
Definition a_tail {V} (a : arr V) : res (list V) :=
  match a with A0 _ => Raise IndexError | A1 l => Ok (List.tl l) end.
(** np.append(a, l) *)
Definition a_append {V} (a : arr V) (l : list V) : arr V :=
  match a with A0 v => A1 (v :: l) | A1 l0 => A1 (l0 ++ l) end.

Definition attrs (V : Type) := string -> option (arr V).
Definition aget {V} (s : attrs V) (k : string) : res (arr V) :=
  match s k with Some a => Ok a | None => Raise AttributeError end.
Definition aset {V} (k : string) (a : arr V) (s : attrs V) : attrs V :=
  fun k' => if String.eqb k k' then Some a else s k'.

(** The simulation object.  [tv] is self.t (a list or array of times). *)
Record sim (V : Type) := Sim {
  typ : mtype;
  at_ : attrs V;
  tv : list Q;             (* self.t *)
  tt_ : option (arr Q);    (* self.t_t *)
  ut_ : option (arr Q);    (* self._t_t *)
  loop_mode : bool;
  collect_sol : bool
}.
Arguments typ {V} _. Arguments at_ {V} _. Arguments tv {V} _. Arguments tt_ {V} _.
Arguments ut_ {V} _. Arguments loop_mode {V} _. Arguments collect_sol {V} _.

Definition set_at {V} (s : sim V) (a : attrs V) : sim V :=
  Sim V (typ s) a (tv s) (tt_ s) (ut_ s) (loop_mode s) (collect_sol s).

(** The per-sample calculations of the time_series_* methods
    (dynamic_simulation.py:372-646), which act elementwise on arrays. *)
Record ops (V : Type) := Ops {
  o_cx : V -> V -> V;           (* re + 1j*im *)
  o_re : V -> V; o_im : V -> V; (* .real .imag *)
  o_b : V -> V; o_c : V -> V;   (* utility_functions.Ub_calc / Uc_calc *)
  o_m : V -> V -> V;            (* m_time_series(u, x, Kp_GCC) *)
  o_abs : V -> V;               (* Uabsolute_time_series *)
  o_vt : V -> V -> V;           (* Vinv_terminal_time_series(m, Vdc) *)
  o_va : V -> V -> V -> V;      (* stand alone PCC voltage from vag, ia, Zload1 *)
  o_pw : V -> V -> V;           (* (1/2) v conj(i) *)
  o_add : V -> V -> V;
  o_rms : V -> V -> V -> V;     (* Urms_time_series *)
  o_ph : V -> V;                (* Uphrms_time_series: |v|/sqrt 2 *)
  o_ppv : Q -> V -> V           (* Ppv at time t for DC voltage Vdc *)
}.
Arguments o_cx {V} _. Arguments o_re {V} _. Arguments o_im {V} _. Arguments o_b {V} _.
Arguments o_c {V} _. Arguments o_m {V} _. Arguments o_abs {V} _. Arguments o_vt {V} _.
Arguments o_va {V} _. Arguments o_pw {V} _. Arguments o_add {V} _. Arguments o_rms {V} _.
Arguments o_ph {V} _. Arguments o_ppv {V} _.

(** The DER model object as far as the simulation reads it.  [d_misc] are the
    instantaneous quantities stored by reset_stored_trajectories. *)
Record der (V : Type) := Der {
  d_state : dstate V;
  d_vdc : V;
  d_misc : string -> V;       (* ia, ma, vta, va, mb, ..., S, Vrms, ... *)
  d_va : V; d_vb : V; d_vc : V; (* gridVoltagePhaseA/B/C *)
  d_alone : bool              (* standAlone *)
}.
Arguments d_state {V} _. Arguments d_vdc {V} _. Arguments d_misc {V} _.
Arguments d_va {V} _. Arguments d_vb {V} _. Arguments d_vc {V} _. Arguments d_alone {V} _.

(** Stand alone grid quantities at the time points, as returned by the event
    queries of time_series_standalone_grid and time_series_Zload1. *)
Record gridf (V : Type) := Gridf { g_a : Q -> V; g_b : Q -> V; g_c : Q -> V; g_z : Q -> V }.
Arguments g_a {V} _. Arguments g_b {V} _. Arguments g_c {V} _. Arguments g_z {V} _.

(* ------------------------------------------------------------------ *)
(** * Elementwise array operations with numpy broadcasting *)

Definition b1 {V} (f : V -> V) (a : arr V) : arr V :=
  match a with A0 v => A0 (f v) | A1 l => A1 (List.map f l) end.

Fixpoint map2 {A B C} (f : A -> B -> C) (l : list A) (l' : list B) : list C :=
  match l, l' with
  | a :: r, b :: r' => f a b :: map2 f r r'
  | _, _ => []
  end.

Definition b2 {V} (f : V -> V -> V) (a b : arr V) : res (arr V) :=
  match a, b with
  | A0 x, A0 y => Ok (A0 (f x y))
  | A0 x, A1 l => Ok (A1 (List.map (f x) l))
  | A1 l, A0 y => Ok (A1 (List.map (fun x => f x y) l))
  | A1 l, A1 l' =>
    if Nat.eqb (List.length l) (List.length l') then Ok (A1 (map2 f l l'))
    else match l, l' with
         | [x], _ => Ok (A1 (List.map (f x) l'))
         | _, [y] => Ok (A1 (List.map (fun x => f x y) l))
         | _, _ => Raise ValueError
         end
  end.

(** f(a,b,c) elementwise; pairs are used for the intermediate result. *)
Definition b3 {V} (f : V -> V -> V -> V) (a b c : arr V) : res (arr V) :=
  match a, b, c with
  | A1 la, A1 lb, A1 lc =>
    if Nat.eqb (List.length la) (List.length lb) && Nat.eqb (List.length lb) (List.length lc)
    then Ok (A1 (map2 (fun ab z => f (fst ab) (snd ab) z) (map2 (fun x y => (x, y)) la lb) lc))
    else Raise ValueError  (* simplification: length-1 broadcasting is not modelled here *)
  | _, _, _ => Raise ValueError (* simplification: 0-d operands do not occur *)
  end.

(** solution[:,i]: IndexError when a row has no column i (numpy solutions are
    rectangular); a solution without rows gives an empty column. *)
Definition col {V} (sol : list (list V)) (i : nat) : res (list V) :=
  mapM (fun r => match nth_error r i with Some v => Ok v | None => Raise IndexError end) sol.

(** The assignment statements that build the stored series, as data, so that
    the methods below are lists of statements in source order. *)
Inductive step (V : Type) :=
| SCol (k : string) (i : nat)               (* self.k = solution[:,i] *)
| SVdc (k : string) (v : V) (x : string)    (* self.k = np.array([v]*len(self.x)) *)
| SRot (kR kI : string) (rot : V -> V) (nR nI : string)
    (* w = rot(self.nR + self.nI*1j); self.kR = w.real; self.kI = w.imag *)
| S1 (k : string) (f : V -> V) (x : string)                (* self.k = f(self.x) *)
| S2 (k : string) (f : V -> V -> V) (x y : string)         (* self.k = f(self.x,self.y) *)
| S3 (k : string) (f : V -> V -> V -> V) (x y z : string)
| SPow3 (k va ia vb ib vc ic : string)      (* (1/2)*(va*conj(ia)+vb*conj(ib)+vc*conj(ic)), the factor distributed *)
| SGrid (k : string) (f : Q -> V)           (* one value per entry of self.t *)
| SRep (k : string) (v : V)                 (* np.repeat(v, len(self.t)) *)
| SPpv (k x : string)                       (* loop over self.t reading self.x[i] *)
| SLen (ks : list string).                  (* assert len(k1) == len(k2) == ... *)
Arguments SCol {V} _ _. Arguments SVdc {V} _ _ _. Arguments SRot {V} _ _ _ _ _.
Arguments S1 {V} _ _ _. Arguments S2 {V} _ _ _ _. Arguments S3 {V} _ _ _ _ _.
Arguments SPow3 {V} _ _ _ _ _ _ _. Arguments SGrid {V} _ _. Arguments SRep {V} _ _.
Arguments SPpv {V} _ _. Arguments SLen {V} _.

(** Ppv_t, lines 575-591: for i,t in enumerate(self.t): ... Vdc_t[i] ... *)
Fixpoint ppv_loop {V} (o : ops V) (ts : list Q) (vs : list V) : res (list V) :=
  match ts with
  | [] => Ok []
  | t :: ts' => match vs with
                | [] => Raise IndexError
                | v :: vs' => bindR (ppv_loop o ts' vs') (fun r => Ok (o_ppv o t v :: r))
                end
  end.

Definition exec {V} (o : ops V) (ts : list Q) (sol : list (list V)) (st : step V) (a : attrs V)
  : res (attrs V) :=
  match st with
  | SCol k i => bindR (col sol i) (fun c => Ok (aset k (A1 c) a))
  | SVdc k v x => bindR (aget a x) (fun ax => bindR (a_len ax) (fun n =>
                  Ok (aset k (A1 (repeat v n)) a)))
  | SRot kR kI rot nR nI =>
      bindR (aget a nR) (fun r => bindR (aget a nI) (fun i =>
      bindR (b2 (o_cx o) r i) (fun x =>
      Ok (aset kI (b1 (fun v => o_im o (rot v)) x) (aset kR (b1 (fun v => o_re o (rot v)) x) a)))))
  | S1 k f x => bindR (aget a x) (fun ax => Ok (aset k (b1 f ax) a))
  | S2 k f x y => bindR (aget a x) (fun ax => bindR (aget a y) (fun ay =>
                  bindR (b2 f ax ay) (fun r => Ok (aset k r a))))
  | S3 k f x y z => bindR (aget a x) (fun ax => bindR (aget a y) (fun ay => bindR (aget a z) (fun az =>
                  bindR (b3 f ax ay az) (fun r => Ok (aset k r a)))))
  | SPow3 k va ia vb ib vc ic =>
      bindR (aget a va) (fun x1 => bindR (aget a ia) (fun y1 => bindR (b2 (o_pw o) x1 y1) (fun s1 =>
      bindR (aget a vb) (fun x2 => bindR (aget a ib) (fun y2 => bindR (b2 (o_pw o) x2 y2) (fun s2 =>
      bindR (b2 (o_add o) s1 s2) (fun s12 =>
      bindR (aget a vc) (fun x3 => bindR (aget a ic) (fun y3 => bindR (b2 (o_pw o) x3 y3) (fun s3 =>
      bindR (b2 (o_add o) s12 s3) (fun r => Ok (aset k r a))))))))))))
  | SGrid k f => Ok (aset k (A1 (List.map f ts)) a)
  | SRep k v => Ok (aset k (A1 (repeat v (List.length ts))) a)
  | SPpv k x => bindR (aget a x) (fun ax => match ax with
      | A0 _ => match ts with [] => Ok (aset k (A1 []) a) | _ => Raise IndexError end
      | A1 vs => bindR (ppv_loop o ts vs) (fun r => Ok (aset k (A1 r) a)) end)
  | SLen ks => bindR (mapM (fun k => bindR (aget a k) a_len) ks) (fun ns =>
      match ns with
      | [] => Ok a
      | n :: r => if forallb (Nat.eqb n) r then Ok a else Raise AssertionError
      end)
  end.

Fixpoint exec_all {V} (o : ops V) (ts : list Q) (sol : list (list V)) (l : list (step V))
  (a : attrs V) : res (attrs V) :=
  match l with
  | [] => Ok a
  | st :: l' => bindR (exec o ts sol st a) (exec_all o ts sol l')
  end.

(* ------------------------------------------------------------------ *)
(** * y0 of the simulation, dynamic_simulation.py:85-138 *)

(** The attributes read (each with [-1]), in order. *)
Definition sim_y0_attrs (m : mtype) : list string :=
  match m with
  | MThree => ["iaR_t";"iaI_t";"xaR_t";"xaI_t";"uaR_t";"uaI_t";
               "ibR_t";"ibI_t";"xbR_t";"xbI_t";"ubR_t";"ubI_t";
               "icR_t";"icI_t";"xcR_t";"xcI_t";"ucR_t";"ucI_t";
               "Vdc_t";"xDC_t";"xQ_t";"xPLL_t";"wte_t";"Vrms_filter"]
  | MThreeNV => ["iaR_t";"iaI_t";"xaR_t";"xaI_t";"uaR_t";"uaI_t";
               "ibR_t";"ibI_t";"xbR_t";"xbI_t";"ubR_t";"ubI_t";
               "icR_t";"icI_t";"xcR_t";"xcI_t";"ucR_t";"ucI_t";
               "Vdc_t";"xDC_t";"xQ_t";"xPLL_t";"wte_t"]
  | MSingle => ["iaR_t";"iaI_t";"xaR_t";"xaI_t";"uaR_t";"uaI_t";
                "Vdc_t";"xDC_t";"xQ_t";"xPLL_t";"wte_t"]
  | MSingleC => ["iaR_t";"iaI_t";"xaR_t";"xaI_t";"uaR_t";"uaI_t";
                "xP_t";"xQ_t";"xPLL_t";"wte_t"]
  | MThreeC => ["iaR_t";"iaI_t";"xaR_t";"xaI_t";"uaR_t";"uaI_t";
               "ibR_t";"ibI_t";"xbR_t";"xbI_t";"ubR_t";"ubI_t";
               "icR_t";"icI_t";"xcR_t";"xcI_t";"ucR_t";"ucI_t";
               "xP_t";"xQ_t";"xPLL_t";"wte_t"]
  | MBal => ["iaR_t";"iaI_t";"xaR_t";"xaI_t";"uaR_t";"uaI_t";
                "Vdc_t";"xDC_t";"xQ_t";"xPLL_t";"wte_t"]
  | MNumba => ["iaR_t";"iaI_t";"xaR_t";"xaI_t";"uaR_t";"uaI_t";
               "ibR_t";"ibI_t";"xbR_t";"xbI_t";"ubR_t";"ubI_t";
               "icR_t";"icI_t";"xcR_t";"xcI_t";"ucR_t";"ucI_t";
               "Vdc_t";"xDC_t";"xQ_t";"xPLL_t";"wte_t"]
  end.

Definition sim_y0 {V} (m : mtype) (a : attrs V) : res (list V) :=
  mapM (fun k => bindR (aget a k) a_last) (sim_y0_attrs m).

(* ------------------------------------------------------------------ *)
(** * collect_states, lines 762-883 *)

(** lines 765-771 *)
Definition cs_a {V} : list (step V) :=
  [SCol "iaR_t" 0; SCol "iaI_t" 1; SCol "xaR_t" 2; SCol "xaI_t" 3; SCol "uaR_t" 4; SCol "uaI_t" 5].

(** lines 785-799 and 826-840 *)
Definition cs_bc {V} : list (step V) :=
  [SCol "ibR_t" 6; SCol "ibI_t" 7; SCol "xbR_t" 8; SCol "xbI_t" 9; SCol "ubR_t" 10; SCol "ubI_t" 11;
   SCol "icR_t" 12; SCol "icI_t" 13; SCol "xcR_t" 14; SCol "xcI_t" 15; SCol "ucR_t" 16; SCol "ucI_t" 17].

(** lines 852-876: the b and c phases of the balanced model *)
Definition cs_bal {V} (o : ops V) : list (step V) :=
  [SRot "ibR_t" "ibI_t" (o_b o) "iaR_t" "iaI_t";
   SRot "xbR_t" "xbI_t" (o_b o) "xaR_t" "xaI_t";
   SRot "ubR_t" "ubI_t" (o_b o) "uaR_t" "uaI_t";
   SRot "icR_t" "icI_t" (o_c o) "iaR_t" "iaI_t";
   SRot "xcR_t" "xcI_t" (o_c o) "xaR_t" "xaI_t";
   SRot "ucR_t" "ucI_t" (o_c o) "uaR_t" "uaI_t"].

Definition cs_rest {V} (o : ops V) (m : mtype) (vdc : V) : list (step V) :=
  match m with
  | MSingle => (* 773-781 *)
      [SCol "Vdc_t" 6; SCol "xDC_t" 7; SCol "xQ_t" 8; SCol "xPLL_t" 9; SCol "wte_t" 10]
  | MThree => (* 783-810 *)
      (cs_bc ++ [SCol "Vdc_t" 18; SCol "xDC_t" 19; SCol "xQ_t" 20;
                 SCol "xPLL_t" 21; SCol "wte_t" 22; SCol "Vrms_filter_t" 23])%list
  | MThreeNV | MNumba =>
      (cs_bc ++ [SCol "Vdc_t" 18; SCol "xDC_t" 19; SCol "xQ_t" 20;
                 SCol "xPLL_t" 21; SCol "wte_t" 22])%list
  | MSingleC => (* 812-820 *)
      [SVdc "Vdc_t" vdc "iaR_t"; SCol "xP_t" 6; SCol "xQ_t" 7; SCol "xPLL_t" 8; SCol "wte_t" 9]
  | MThreeC => (* 822-848 *)
      (cs_bc ++ [SVdc "Vdc_t" vdc "iaR_t"; SCol "xP_t" 18; SCol "xQ_t" 19;
                 SCol "xPLL_t" 20; SCol "wte_t" 21])%list
  | MBal => (* 850-883 *)
      (cs_bal o ++ [SCol "Vdc_t" 6; SCol "xDC_t" 7; SCol "xQ_t" 8;
                    SCol "xPLL_t" 9; SCol "wte_t" 10])%list
  end.

Definition cs_steps {V} (o : ops V) (m : mtype) (vdc : V) : list (step V) :=
  (cs_a ++ cs_rest o m vdc)%list.

Definition collect_states {V} (o : ops V) (m : mtype) (vdc : V) (ts : list Q) (sol : list (list V))
  (a : attrs V) : res (attrs V) :=
  exec_all o ts sol (cs_steps o m vdc) a.

(* ------------------------------------------------------------------ *)
(** * initialize_y0_t, lines 162-275 *)

(** self.k = np.array([self.DER_model.y0[i]]) is column i of the one-row
    "solution" [y0], and np.array([Vdc]) the corresponding constant; y0 does not
    change between the statements. *)
Definition iy_rest {V} (o : ops V) (m : mtype) (vdc : V) : list (step V) :=
  match m with
  | MSingle => (* 172-179 *)
      [SCol "Vdc_t" 6; SCol "xDC_t" 7; SCol "xQ_t" 8; SCol "xPLL_t" 9; SCol "wte_t" 10]
  | MThree => (* 181-205; note the attribute name Vrms_filter *)
      (cs_bc ++ [SCol "Vdc_t" 18; SCol "xDC_t" 19; SCol "xQ_t" 20;
                 SCol "xPLL_t" 21; SCol "wte_t" 22; SCol "Vrms_filter" 23])%list
  | MThreeNV | MNumba =>
      (cs_bc ++ [SCol "Vdc_t" 18; SCol "xDC_t" 19; SCol "xQ_t" 20;
                 SCol "xPLL_t" 21; SCol "wte_t" 22])%list
  | MThreeC => (* 207-228 *)
      (cs_bc ++ [SVdc "Vdc_t" vdc "iaR_t"; SCol "xP_t" 18; SCol "xQ_t" 19;
                 SCol "xPLL_t" 20; SCol "wte_t" 21])%list
  | MBal => (* 230-264 *)
      (cs_bal o ++ [SCol "Vdc_t" 6; SCol "xDC_t" 7; SCol "xQ_t" 8;
                    SCol "xPLL_t" 9; SCol "wte_t" 10])%list
  | MSingleC => (* 266-273 *)
      [SVdc "Vdc_t" vdc "iaR_t"; SCol "xP_t" 6; SCol "xQ_t" 7; SCol "xPLL_t" 8; SCol "wte_t" 9]
  end.

Definition iy_steps {V} (o : ops V) (m : mtype) (vdc : V) : list (step V) :=
  (cs_a ++ iy_rest o m vdc)%list.

Definition initialize_y0_t {V} (o : ops V) (m : mtype) (d : der V) (a : attrs V) : res (attrs V) :=
  bindR (der_y0 m (d_state d)) (fun y => exec_all o [] [y] (iy_steps o m (d_vdc d)) a).

(* ------------------------------------------------------------------ *)
(** * Stored trajectories *)

(** reset_stored_trajectories, lines 278-318: pairs (attribute X_t, DER
    quantity); both X_t and _X_t become the same 0-d array. *)
Definition reset_list (m : mtype) : list (string * string) :=
  ([("Vdc_t", "Vdc"); ("ia_t", "ia"); ("ma_t", "ma"); ("vta_t", "vta"); ("va_t", "va");
   ("ma_absolute_t", "abs ma"); ("Varms_t", "rms va")] ++
  (if is_three m then
   [("mb_absolute_t", "abs mb"); ("mc_absolute_t", "abs mc");
    ("Vbrms_t", "rms vb"); ("Vcrms_t", "rms vc");
    ("ib_t", "ib"); ("mb_t", "mb"); ("vtb_t", "vtb"); ("vb_t", "vb");
    ("ic_t", "ic"); ("mc_t", "mc"); ("vtc_t", "vtc"); ("vc_t", "vc")] else []) ++
  [("Irms_t", "Irms"); ("Ppv_t", "Ppv"); ("S_PCC_t", "S_PCC"); ("S_t", "S");
   ("Vtrms_t", "Vtrms"); ("Vrms_t", "Vrms")] ++
  (match m with MThree => [("Vrms_filter_t", "Vrms_filter")] | _ => [] end))%list.

Definition under (k : string) : string := String.append "_" k.

Definition reset_stored {V} (m : mtype) (d : der V) (a : attrs V) : attrs V :=
  fold_left (fun a p => aset (fst p) (A0 (d_misc d (snd p)))
                          (aset (under (fst p)) (A0 (d_misc d (snd p))) a))
            (reset_list m) a.

(** collect_last_states, lines 663-703: _X_t = np.append(_X_t, X_t[1:]). *)
Definition append_list (m : mtype) : list string :=
  (["Vdc_t"; "ia_t"; "ma_t"; "vta_t"; "va_t"; "ma_absolute_t"; "Varms_t"] ++
  (if is_three m then
   ["mb_absolute_t"; "mc_absolute_t"; "Vbrms_t"; "Vcrms_t";
    "ib_t"; "mb_t"; "vtb_t"; "vb_t"; "ic_t"; "mc_t"; "vtc_t"; "vc_t"] else []) ++
  ["Irms_t"; "Vtrms_t"; "Vrms_t"] ++
  (match m with MThree => ["Vrms_filter_t"] | _ => [] end) ++
  ["Ppv_t"; "S_t"; "S_PCC_t"])%list.

Definition append1 {V} (k : string) (a : attrs V) : res (attrs V) :=
  bindR (aget a (under k)) (fun u => bindR (aget a k) (fun x => bindR (a_tail x) (fun l =>
  Ok (aset (under k) (a_append u l) a)))).

Fixpoint append_all {V} (l : list string) (a : attrs V) : res (attrs V) :=
  match l with [] => Ok a | k :: l' => bindR (append1 k a) (append_all l') end.

Definition collect_last {V} (m : mtype) (a : attrs V) : res (attrs V) :=
  append_all (append_list m) a.

(** invert_arrays, lines 886-928: X_t = _X_t. *)
Definition invert_list (m : mtype) : list string :=
  (["Vdc_t"; "ia_t"; "ma_t"; "vta_t"; "va_t"; "ma_absolute_t"; "Varms_t"] ++
  (if is_three m then
   ["mb_absolute_t"; "mc_absolute_t"; "Vbrms_t"; "Vcrms_t";
    "ib_t"; "mb_t"; "vtb_t"; "vb_t"; "ic_t"; "mc_t"; "vtc_t"; "vc_t"] else []) ++
  ["Vtrms_t"; "Vrms_t"; "Irms_t"; "Ppv_t"; "S_t"; "S_PCC_t"] ++
  (match m with MThree => ["Vrms_filter_t"] | _ => [] end))%list.

Definition invert1 {V} (k : string) (a : attrs V) : res (attrs V) :=
  bindR (aget a (under k)) (fun u => Ok (aset k u a)).

(** The loop over the list also returns the attributes reached at an
    exception, because the assignments already made persist. *)
Fixpoint invert_steps {V} (l : list string) (a : attrs V) : attrs V * res unit :=
  match l with
  | [] => (a, Ok tt)
  | k :: l' => match invert1 k a with Ok a' => invert_steps l' a' | Raise e => (a, Raise e) end
  end.

(* ------------------------------------------------------------------ *)
(** * collect_full_trajectory, lines 706-760 *)

(** PCC LV side voltage of one phase, lines 412-438: either elementwise from
    the grid quantities or np.repeat(gridVoltagePhaseX, len(self.t)). *)
Definition ft_v {V} (o : ops V) (alone : bool) (k vg i : string) (fixed : V) : step V :=
  if alone then S3 k (o_va o) vg i "Zload1_t" else SRep k fixed.

(** lines 713-757; HV side voltages, S_G_t, S_load1_t, phase angles and the
    PLL series are not part of the modelled attribute set (they are neither
    states nor returned trajectories) and cannot fail when the lengths agree.
    The length assertions of lines 719 and 729 are kept.  Stand-alone grid
    voltages and loads are one value per time point (lines 475-508, 554-572);
    that they follow the event schedule is GridModel.v. *)
Definition ft_steps {V} (o : ops V) (m : mtype) (d : der V) (g : gridf V) : list (step V) :=
  ([S2 "ia_t" (o_cx o) "iaR_t" "iaI_t"; S2 "ua_t" (o_cx o) "uaR_t" "uaI_t";
   S2 "xa_t" (o_cx o) "xaR_t" "xaI_t"; SLen ["ua_t"; "xa_t"]] ++
  (if is_three m then
   [S2 "ib_t" (o_cx o) "ibR_t" "ibI_t"; S2 "ic_t" (o_cx o) "icR_t" "icI_t";
    S2 "ub_t" (o_cx o) "ubR_t" "ubI_t"; S2 "uc_t" (o_cx o) "ucR_t" "ucI_t";
    S2 "xb_t" (o_cx o) "xbR_t" "xbI_t"; S2 "xc_t" (o_cx o) "xcR_t" "xcI_t";
    SLen ["ua_t"; "ub_t"; "uc_t"; "xa_t"; "xb_t"; "xc_t"]] else []) ++
  (* time_series_duty_cycle, 388-409 *)
  [S2 "ma_t" (o_m o) "ua_t" "xa_t"; S1 "ma_absolute_t" (o_abs o) "ma_t"] ++
  (if is_three m then
   [S2 "mb_t" (o_m o) "ub_t" "xb_t"; S2 "mc_t" (o_m o) "uc_t" "xc_t";
    S1 "mb_absolute_t" (o_abs o) "mb_t"; S1 "mc_absolute_t" (o_abs o) "mc_t"] else []) ++
  (if d_alone d then
   [SGrid "vag_t" (g_a g); SGrid "vbg_t" (g_b g); SGrid "vcg_t" (g_c g); SGrid "Zload1_t" (g_z g)]
   else []) ++
  (* time_series_inv_terminal_voltage, 441-449 *)
  [S2 "vta_t" (o_vt o) "ma_t" "Vdc_t"] ++
  (if is_three m then [S2 "vtb_t" (o_vt o) "mb_t" "Vdc_t"; S2 "vtc_t" (o_vt o) "mc_t" "Vdc_t"] else []) ++
  (* time_series_PCC_LV_side_voltage *)
  [ft_v o (d_alone d) "va_t" "vag_t" "ia_t" (d_va d)] ++
  (if is_three m then
   [ft_v o (d_alone d) "vb_t" "vbg_t" "ib_t" (d_vb d);
    ft_v o (d_alone d) "vc_t" "vcg_t" "ic_t" (d_vc d)] else []) ++
  (* time_series_S, 594-613 *)
  (if is_three m then
   [SPow3 "S_t" "vta_t" "ia_t" "vtb_t" "ib_t" "vtc_t" "ic_t";
    SPow3 "S_PCC_t" "va_t" "ia_t" "vb_t" "ib_t" "vc_t" "ic_t"]
   else [S2 "S_t" (o_pw o) "vta_t" "ia_t"; S2 "S_PCC_t" (o_pw o) "va_t" "ia_t"]) ++
  (* time_series_RMS, 452-472 *)
  (if is_three m then
   [S3 "Vtrms_t" (o_rms o) "vta_t" "vtb_t" "vtc_t"; S3 "Vrms_t" (o_rms o) "va_t" "vb_t" "vc_t";
    S3 "Irms_t" (o_rms o) "ia_t" "ib_t" "ic_t"; S1 "Varms_t" (o_ph o) "va_t";
    S1 "Vbrms_t" (o_ph o) "vb_t"; S1 "Vcrms_t" (o_ph o) "vc_t"]
   else
   [S3 "Vtrms_t" (o_rms o) "vta_t" "vta_t" "vta_t"; S3 "Vrms_t" (o_rms o) "va_t" "va_t" "va_t";
    S3 "Irms_t" (o_rms o) "ia_t" "ia_t" "ia_t"; S1 "Varms_t" (fun v => v) "Vrms_t"]) ++
  (* time_series_Ppv *)
  [SPpv "Ppv_t" "Vdc_t"])%list.

Definition collect_full {V} (o : ops V) (m : mtype) (d : der V) (g : gridf V) (ts : list Q)
  (sol : list (list V)) (a : attrs V) : res (attrs V) :=
  bindR (collect_states o m (d_vdc d) ts sol a) (exec_all o ts sol (ft_steps o m d g)).

(* ------------------------------------------------------------------ *)
(** * Construction and runs *)

(** __init__, lines 38-82, loop or batch mode, odeint solver; the grid-model
    check is in [needs_grid].  The time vector is [t_calc]. *)
Definition t_calc (tStart tStop tInc : Q) : res (list Q) :=
  (* line 148: np.arange(self.tStart, self.tStop + self.tInc, self.tInc) *)
  arange tStart (tStop + tInc) tInc.

Definition make_sim {V} (o : ops V) (m : mtype) (d : der V) (ts : list Q) (lm cs : bool)
  : res (sim V) :=
  let a0 : attrs V := fun _ => None in
  let a1 := if lm then reset_stored m d a0 else a0 in
  bindR (initialize_y0_t o m d a1) (fun a2 =>
  Ok (Sim V m a2 ts None (if lm then Some (A0 0) else None) lm cs)).

(** collect_simulation_results, lines 649-660. *)
Definition collect_results {V} (o : ops V) (d : der V) (g : gridf V) (sol : list (list V))
  (t : list Q) (s : sim V) : res (sim V) :=
  if loop_mode s then
    bindR (collect_full o (typ s) d g t sol (at_ s)) (fun a1 =>
    bindR (match ut_ s with Some u => Ok u | None => Raise AttributeError end) (fun u =>
    bindR (collect_last (typ s) a1) (fun a2 =>
    Ok (Sim V (typ s) a2 t (Some (A1 t)) (Some (a_append u (List.tl t))) (loop_mode s) (collect_sol s)))))
  else
    bindR (collect_full o (typ s) d g (tv s) sol (at_ s)) (fun a1 =>
    Ok (Sim V (typ s) a1 (tv s) (Some (A1 (tv s))) (ut_ s) (loop_mode s) (collect_sol s))).

(** The part of run_simulation (lines 931-977) after the solver returned, for
    loop mode.  [d] is the DER after the solver finished. *)
Definition finish_run {V} (o : ops V) (d : der V) (g : gridf V) (sol : list (list V))
  (t : list Q) (s : sim V) : res (sim V) :=
  if collect_sol s then collect_results o d g sol t s
  else bindR (collect_states o (typ s) (d_vdc d) t sol (at_ s)) (fun a => Ok (set_at s a)).

(** Arguments of run_simulation in loop mode and their run-time types. *)
Inductive pyarg (V : Type) := PComplex (v : V) | PList (l : list V) | PTimes (l : list Q) | POther.
Arguments PComplex {V} _. Arguments PList {V} _. Arguments PTimes {V} _. Arguments POther {V}.

(** run_simulation, loop mode.  [solver y0 t] is odeint: the rows of the
    solution, one per time point. *)
Definition run_loop {V} (o : ops V) (d : der V) (g : gridf V)
  (solver : list V -> list Q -> list (list V)) (va y0 t : pyarg V) (s : sim V) : res (sim V) :=
  match va, y0, t with
  | PComplex _, PList y, PTimes ts =>
    match ts with
    | [] => Raise IndexError   (* line 944: t[0] *)
    | _ => finish_run o d g (solver y ts) ts s
    end
  | _, _, _ => Raise ValueError
  end.

(** run_simulation, batch mode (lines 952-971): the time vector and the
    initial arrays are rebuilt from the DER's current state, the solver runs
    from sim.y0, then the results are collected. *)
Definition run_batch {V} (o : ops V) (d d' : der V) (g : gridf V)
  (solver : list V -> list Q -> list (list V)) (tStart tStop tInc : Q) (s : sim V) : res (sim V) :=
  bindR (t_calc tStart tStop tInc) (fun ts =>
  bindR (initialize_y0_t o (typ s) d (at_ s)) (fun a =>
  bindR (sim_y0 (typ s) a) (fun y =>
  finish_run o d' g (solver y ts) ts
    (Sim V (typ s) a ts (tt_ s) (ut_ s) (loop_mode s) (collect_sol s))))).

(* ------------------------------------------------------------------ *)
(** * get_trajectories, lines 1006-1030 *)
Definition traj_list (m : mtype) : list string :=
  (["ia_t"; "ma_t"; "Vdc_t"; "vta_t"; "va_t"; "Irms_t"; "Vtrms_t"; "Vrms_t"; "Ppv_t"; "S_t"; "S_PCC_t"] ++
  (if is_three m then
   ["ib_t"; "ic_t"; "mb_t"; "mc_t"; "vtb_t"; "vtc_t"; "vb_t"; "vc_t"] else []) ++
  (match m with MThree => ["Vrms_filter_t"] | _ => [] end))%list.

Definition get_trajectories {V} (s : sim V) : sim V * res (list (string * arr V)) :=
  let '(s1, r1) :=
    if loop_mode s then
      let '(a, r) := invert_steps (invert_list (typ s)) (at_ s) in
      (Sim V (typ s) a (tv s) (ut_ s) (ut_ s) (loop_mode s) (collect_sol s), r)
    else (s, Ok tt) in
  (s1,
   bindR r1 (fun _ =>
   bindR (mapM (fun k => bindR (aget (at_ s1) k) (fun a => Ok (k, a))) (traj_list (typ s))) (fun d =>
   bindR (match tt_ s1 with None => Raise AttributeError | Some tt0 => a_len tt0 end) (fun n =>
   bindR (mapM (fun p => bindR (a_len (snd p)) (fun n' =>
            if Nat.eqb n n' then Ok tt else Raise AssertionError)) d) (fun _ => Ok d))))).

(* ------------------------------------------------------------------ *)
(** * Solvers, simulation_utilities.py:362-503 *)

(** check_simulation, lines 462-503.  [conv] is self.SOLVER_CONVERGENCE (None:
    not yet set), [fails] the recorded (time, code) pairs of
    convergence_failure_list. *)
Record solver_st := SolverSt { conv : option bool; fails : list (Q * Z) }.

Definition bad_status (z : Z) : bool := (z =? 0)%Z || (2 <? z)%Z.

Fixpoint index_true {A} (f : A -> bool) (l : list A) : nat :=
  match l with [] => 0 | x :: l' => if f x then 0 else Datatypes.S (index_true f l') end.

Definition check_simulation (mused : list Z) (t : list Q) (s : solver_st) : solver_st * res unit :=
  if existsb bad_status mused then
    if Nat.eqb (List.length mused) (List.length t - 1) then
      let i := index_true bad_status mused in
      match nth_error t i, nth_error mused i with
      | Some ti, Some c => (SolverSt (Some false) (fails s ++ [(ti, c)])%list, Raise ValueError)
      | _, _ => (SolverSt (Some false) (fails s), Raise IndexError)
      end
    else (s, Raise AssertionError)
  else (SolverSt (Some true) (fails s), Ok tt).

(** The vode stepping loop, call_ode_solver lines 397-416.  [step k] tells
    whether the k-th integrate() call succeeded; a successful call advances the
    internal time to exactly t + tInc.  [fuel] bounds the number of loop
    iterations and is proved irrelevant. *)
Fixpoint vode_loop (fuel : nat) (step : nat -> bool) (tStop tInc t : Q) (k : nat) : list Q :=
  match fuel with
  | O => []
  | Datatypes.S f =>
    if qle tInc (tStop + (1#1000000) - t)
    then (t + tInc) :: (if step k then vode_loop f step tStop tInc (t + tInc) (Datatypes.S k) else [])
    else []
  end.
Definition vode_times (fuel : nat) (step : nat -> bool) (tStart tStop tInc : Q) : list Q :=
  tStart :: vode_loop fuel step tStop tInc tStart 0.

(** Python's solver selection.  [solver_type] of a simulation object is unset
    (None) before initialize_solver has completed line 423. *)
Definition solver_list : list string := ["odeint"; "ode-vode-bdf"].

(** initialize_solver, lines 419-435: the assertion message formats
    self.solver_type, and the vode branch reads self.y0. *)
Definition initialize_solver {V} (m : mtype) (a : attrs V) (cur : option string) (st : string)
  : option string * res unit :=
  if existsb (String.eqb st) solver_list then
    (Some st,
     if String.eqb st "ode-vode-bdf"
     then bindR (sim_y0 m a) (fun _ => Ok tt) else Ok tt)
  else (cur, match cur with None => Raise AttributeError | Some _ => Raise AssertionError end).

(** __init__ calls initialize_solver (line 59) on an object that has no
    trajectory attributes yet. *)
Definition construct_solver {V} (m : mtype) (st : string) : res unit :=
  snd (initialize_solver m (fun _ => @None (arr V)) None st).

(** call_ODE_solver, lines 369-382: the returned triple reads
    self.SOLVER_CONVERGENCE, which only check_simulation (odeint) ever sets. *)
Definition call_ODE_solver (st : string) (mused : list Z) (t : list Q) (s : solver_st)
  : solver_st * res bool :=
  if String.eqb st "odeint" then
    let '(s1, r) := check_simulation mused t s in
    (s1, bindR r (fun _ => match conv s1 with Some b => Ok b | None => Raise AttributeError end))
  else if String.eqb st "ode-vode-bdf" then
    (s, match conv s with Some b => Ok b | None => Raise AttributeError end)
  else (s, Raise UnboundLocalError).
