(** Model of /repo/pvder/simulation_events.py (class SimulationEvents). *)
From Verif Require Import Base.

(** * Generic timed lists
    The three schedules are Python lists of dictionaries with key 'T' and
    payload keys; [A] is the payload. *)
Record ev (A : Type) := Ev { eT : Q; eV : A }.
Arguments Ev {A} _ _.
Arguments eT {A} _.
Arguments eV {A} _.

Section Timed.
  Context {A : Type} (veqb : A -> A -> bool).

  (** dict equality, as used by [list.remove(event)] *)
  Definition ev_eqb (a b : ev A) : bool := qeq (eT a) (eT b) && veqb (eV a) (eV b).

  (** Python [list.remove(x)]: drops the first element equal to [x].  (It raises
      ValueError when there is none; in the loops below [x] is an element.) *)
  Fixpoint py_remove (x : ev A) (l : list (ev A)) : list (ev A) :=
    match l with
    | [] => []
    | y :: l' => if ev_eqb y x then l' else y :: py_remove x l'
    end.

  (** simulation_events.py:202-205, 236-239, 263-266, 302-306, 320-324:
        for event in L:
            if T == event['T']: L.remove(event)
      A Python [for] over a list that is mutated advances an index and stops
      when it passes the current length; [i] is that index.  The list never
      grows, so [length l] iterations suffice (fuel). The boolean is REMOVE_FLAG. *)
  Fixpoint remove_loop (fuel : nat) (T : Q) (i : nat) (l : list (ev A)) (flag : bool)
    : list (ev A) * bool :=
    match fuel with
    | O => (l, flag)
    | S f =>
      match nth_error l i with
      | None => (l, flag)
      | Some e => if qeq T (eT e) then remove_loop f T (S i) (py_remove e l) true
                  else remove_loop f T (S i) l flag
      end
    end.
  Definition remove_at (T : Q) (l : list (ev A)) : list (ev A) * bool :=
    remove_loop (length l) T 0 l false.

  (** Python's stable [list.sort(key=itemgetter('T'))]. *)
  Fixpoint ins_sorted (x : ev A) (l : list (ev A)) : list (ev A) :=
    match l with
    | [] => [x]
    | y :: l' => if qle (eT x) (eT y) then x :: l else y :: ins_sorted x l'
    end.
  Fixpoint sort_T (l : list (ev A)) : list (ev A) :=
    match l with [] => [] | x :: l' => ins_sorted x (sort_T l') end.

  (** Common tail of add_*_event (lines 202-209, 236-243, 263-269):
      remove the event at the same T, append, sort. *)
  Definition insert_event (T : Q) (v : A) (l : list (ev A)) : list (ev A) :=
    sort_T (fst (remove_at T l) ++ [Ev T v]).
End Timed.

(** One schedule: the list, its *_events_total and *_event_counter. *)
Record sched (A : Type) := Sched { items : list (ev A); total : Z; counter : Z }.
Arguments Sched {A} _ _ _.
Arguments items {A} _.
Arguments total {A} _.
Arguments counter {A} _.

(** Payloads: solar (Sinsol, Tactual); grid (Vgrid, Vgrid_angle, fgrid);
    load: real and imaginary part of Zload1_actual. *)
Record solarV := SolarV { Sinsol : Q; Tactual : Q }.
Record gridV := GridV { Vgrid : Q; Vangle : Q; fgrid : Q }.
Record loadV := LoadV { Zre : Q; Zim : Q }.
Definition solarV_eqb a b := qeq (Sinsol a) (Sinsol b) && qeq (Tactual a) (Tactual b).
Definition gridV_eqb a b :=
  qeq (Vgrid a) (Vgrid b) && qeq (Vangle a) (Vangle b) && qeq (fgrid a) (fgrid b).
Definition loadV_eqb a b := qeq (Zre a) (Zre b) && qeq (Zim a) (Zim b).

(** _events_spec, lines 24-27 (voltage_angle min/max are never read). *)
Record spec := Spec {
  ins_default : Q; ins_min : Q; ins_max : Q;
  vol_default : Q; vol_min : Q; vol_max : Q;
  ang_default : Q;
  frq_default : Q; frq_min : Q; frq_max : Q }.
Definition default_spec : spec :=
  Spec 100 25 100   1 (1#10) (115#100)   0   60 56 62.

(** [math.pi] as the exact rational value of the IEEE double. *)
Definition math_pi : Q := 884279719003555 # 281474976710656.

(** defaults.py: Tactual = 298.15, Zload1_actual = 10e6+0j, DEFAULT_DELTA_T = 0.001 *)
Definition Tactual_default : Q := 29815 # 100.
Definition Zload_default : loadV := LoadV 10000000 0.
Definition del_t_event : Q := 1 # 1000.

(** A SimulationEvents instance. *)
Record events := Events {
  espec : spec;
  override_angle : bool;
  solarEn : bool; gridEn : bool; loadEn : bool;
  solar : sched solarV; grid : sched gridV; load : sched loadV }.

Definition set_solar (s : events) x := Events (espec s) (override_angle s) (solarEn s) (gridEn s) (loadEn s) x (grid s) (load s).
Definition set_grid (s : events) x := Events (espec s) (override_angle s) (solarEn s) (gridEn s) (loadEn s) (solar s) x (load s).
Definition set_load (s : events) x := Events (espec s) (override_angle s) (solarEn s) (gridEn s) (loadEn s) (solar s) (grid s) x.

(** __init__, lines 32-58: empty lists, totals and counters 0.  The class-level
    dictionary _events_spec is a parameter here; its sharing between instances
    is modelled separately in EventsSharedModel.v. *)
Definition init_events (sp : spec) (ov se ge le : bool) : events :=
  Events sp ov se ge le (Sched [] 0 0) (Sched [] 0 0) (Sched [] 0 0).

Definition len {A} (l : list A) : Z := Z.of_nat (length l).

(** update_event_totals, lines 391-399 (events_total is the sum of the three). *)
Definition update_totals (s : events) : events :=
  Events (espec s) (override_angle s) (solarEn s) (gridEn s) (loadEn s)
    (Sched (items (solar s)) (len (items (solar s))) (counter (solar s)))
    (Sched (items (grid s)) (len (items (grid s))) (counter (grid s)))
    (Sched (items (load s)) (len (items (load s))) (counter (load s))).

(** reset_event_counters, lines 402-410. *)
Definition reset_counters (s : events) : events :=
  Events (espec s) (override_angle s) (solarEn s) (gridEn s) (loadEn s)
    (Sched (items (solar s)) (total (solar s)) 0)
    (Sched (items (grid s)) (total (grid s)) 0)
    (Sched (items (load s)) (total (load s)) 0).

(** add_solar_event, lines 184-212. *)
Definition add_solar_event (s : events) (T si K : Q) : events * res unit :=
  if (qlt si (ins_min (espec s)) || qlt (ins_max (espec s)) si)%bool then (s, Raise ValueError)
  else if (qlt 375 K || qlt K 250)%bool then (s, Raise ValueError)
  else
    let l := insert_event solarV_eqb T (SolarV si K) (items (solar s)) in
    (update_totals (set_solar s (Sched l (total (solar s)) (counter (solar s)))), Ok tt).

(** add_grid_event, lines 215-246. *)
Definition add_grid_event (s : events) (T V a f : Q) : events * res unit :=
  if (qlt V (vol_min (espec s)) || qlt (vol_max (espec s)) V)%bool then (s, Raise ValueError)
  else if (qlt f (frq_min (espec s)) || qlt (frq_max (espec s)) f)%bool then (s, Raise ValueError)
  else
    let l := insert_event gridV_eqb T (GridV V a f) (items (grid s)) in
    (update_totals (set_grid s (Sched l (total (grid s)) (counter (grid s)))), Ok tt).

(** add_load_event, lines 249-272. *)
Definition add_load_event (s : events) (T : Q) (zr zi : Q) : events * res unit :=
  if qlt zr 0 then (s, Raise ValueError)
  else
    let l := insert_event loadV_eqb T (LoadV zr zi) (items (load s)) in
    (update_totals (set_load s (Sched l (total (load s)) (counter (load s)))), Ok tt).

(** Branch structure shared by solar_events (lines 87-100) and load_events
    (168-177); they differ only in the schedule and the default value. *)
Definition query_sched {A} (dflt : A) (sc : sched A) (t : Q) : sched A * res A :=
  match items sc with
  | [] => (sc, Ok dflt)
  | e0 :: _ =>
    if qlt t (eT e0) then (sc, Ok dflt)
    else match py_index (items sc) (counter sc) with
         | Raise x => (sc, Raise x)
         | Ok ec =>
           if (qlt t (eT ec) && (1 <=? counter sc)%Z)%bool then
             match py_index (items sc) (counter sc - 1) with
             | Raise x => (sc, Raise x)
             | Ok ep => (sc, Ok (eV ep))
             end
           else if qle (eT ec) t then
             (Sched (items sc) (total sc) (Z.min (total sc - 1) (counter sc + 1)), Ok (eV ec))
           else (sc, Raise UnboundLocalError)   (* no branch assigns Sinsol *)
         end
  end.

(** solar_events, lines 81-103. *)
Definition solar_events (s : events) (t : Q) : events * res solarV :=
  let d := SolarV (ins_default (espec s)) Tactual_default in
  if solarEn s then
    let '(sc, r) := query_sched d (solar s) t in (set_solar s sc, r)
  else (s, Ok d).

(** load_events, lines 162-181. *)
Definition load_events (s : events) (t : Q) : events * res loadV :=
  if loadEn s then
    let '(sc, r) := query_sched Zload_default (load s) t in (set_load s sc, r)
  else (s, Ok Zload_default).

(** grid_events, lines 106-159.  The API returns
    (cmath.rect(Vgrid, Vgrid_angle), 2*pi*fgrid); the model returns the triple. *)
Definition grid_default (s : events) : gridV :=
  GridV (vol_default (espec s)) (ang_default (espec s)) (frq_default (espec s)).

Definition advance_grid (s : events) : events :=      (* line 149 *)
  set_grid s (Sched (items (grid s)) (total (grid s))
                    (Z.min (total (grid s) - 1) (counter (grid s) + 1))).

Definition old_grid (s : events) : res gridV :=       (* lines 129-134, 140-143 *)
  if (counter (grid s) =? 0)%Z then Ok (grid_default s)
  else match py_index (items (grid s)) (counter (grid s) - 1) with
       | Ok e => Ok (eV e) | Raise x => Raise x end.

(** grid_events, lines 106-160; [dt] is the attribute del_t_event. *)
Definition grid_events_at (dt : Q) (s : events) (t : Q) : events * res gridV :=
  if negb (gridEn s) then (s, Ok (grid_default s))
  else match items (grid s) with
  | [] => (s, Ok (grid_default s))
  | _ :: _ =>
    let l := items (grid s) in let c := counter (grid s) in
    match py_index l c with
    | Raise x => (s, Raise x)
    | Ok ec =>
      if (qlt t (eT ec) && (c =? 0)%Z)%bool then (s, Ok (grid_default s))
      else if (qlt t (eT ec) && (1 <=? c)%Z)%bool then
        match py_index l (c - 1) with
        | Raise x => (s, Raise x)
        | Ok ep => (s, Ok (eV ep))
        end
      else if qle (eT ec) t then
        match py_index l (-1) with
        | Raise x => (s, Raise x)
        | Ok elast =>
          if (override_angle s && qlt t (eT elast + (3#1000)))%bool then   (* line 127 *)
            match old_grid s with
            | Raise x => (s, Raise x)
            | Ok old =>
              let ang := Vangle old + 2 * math_pi * (fgrid (eV ec) - fgrid old) * dt in
              match add_grid_event s (eT ec) (Vgrid (eV ec)) ang (fgrid (eV ec)) with
              | (s', Raise x) => (s', Raise x)
              | (s', Ok _) =>
                (advance_grid s', Ok (GridV (Vgrid (eV ec)) ang (fgrid (eV ec))))
              end
            end
          else if (negb (override_angle s) && qlt t (eT elast + (3#1000)))%bool then (* line 139 *)
            match old_grid s with
            | Raise x => (s, Raise x)
            | Ok old =>
              let del_f := (Vangle (eV ec) - Vangle old) / ((2 * math_pi) * dt) in
              let f := 60 + del_f in
              match add_grid_event s (eT ec) (Vgrid (eV ec)) (Vangle (eV ec)) f with
              | (s', Raise x) => (s', Raise x)
              | (s', Ok _) =>
                (advance_grid s', Ok (GridV (Vgrid (eV ec)) (Vangle (eV ec)) f))
              end
            end
          else (advance_grid s, Ok (eV ec))
        end
      else (s, Raise UnboundLocalError)
    end
  end.
(** grid_events with the step the events object has by default (line 28, defaults.py:34)
    and gets from every simulation created with the default step
    (dynamic_simulation.py:58) *)
Definition grid_events (s : events) (t : Q) : events * res gridV := grid_events_at del_t_event s t.

(** remove_solar_event, lines 275-294.  [logging] is never imported in the
    module, so line 283 (event found) and line 287 (not found) both raise
    NameError before anything is changed; the REMOVE_ALL branch clears the list
    (line 290) and then reads the non-existent attribute Sinsol_default
    (line 291), so AttributeError escapes before the totals are updated. *)
Definition remove_solar_event (s : events) (T : option Q) (all : bool) : events * res unit :=
  match all, T with
  | false, Some _ => (s, Raise NameError)
  | _, _ => (set_solar s (Sched [] (total (solar s)) (counter (solar s))), Raise AttributeError)
  end.

(** remove_grid_event, lines 297-311. *)
Definition remove_grid_event (s : events) (T : Q) : events * res unit :=
  let l := fst (remove_at gridV_eqb T (items (grid s))) in
  (update_totals (set_grid s (Sched l (total (grid s)) (counter (grid s)))), Ok tt).

(** remove_load_event, lines 314-333 (line 330 reads the non-existent
    attribute Zload1_default after the list has been cleared). *)
Definition remove_load_event (s : events) (T : option Q) (all : bool) : events * res unit :=
  match all, T with
  | false, Some T =>
    let l := fst (remove_at loadV_eqb T (items (load s))) in
    (update_totals (set_load s (Sched l (total (load s)) (counter (load s)))), Ok tt)
  | _, _ => (set_load s (Sched [] (total (load s)) (counter (load s))), Raise AttributeError)
  end.

(** create_random_insolation_events / create_random_voltage_events, lines
    433-450; [r] is the value returned by random.random(), in [0,1). *)
Definition create_random_insolation (s : events) (t r : Q) : events * res unit :=
  add_solar_event s t (ins_min (espec s) + r * (ins_max (espec s) - ins_min (espec s))) (29815#100).
Definition create_random_voltage (s : events) (t r : Q) : events * res unit :=
  add_grid_event s t (vol_min (espec s) + r * (vol_max (espec s) - vol_min (espec s))) 0 60.

(** numpy.arange(a, b, step), step > 0: ceil((b-a)/step) points a + i*step
    (empty when that is <= 0).  numpy raises ZeroDivisionError for step = 0;
    step < 0 with a < b gives the empty array. *)
Definition arange (a b step : Q) : res (list Q) :=
  if qeq step 0 then Raise ZeroDivisionError
  else Ok (map (fun i => a + inject_Z (Z.of_nat i) * step)
               (seq 0 (Z.to_nat (- Qfloor (- ((b - a) / step)))))).

(** numpy.linspace(a, b, n): n points, [a] alone for n = 1. *)
Definition linspace (a b : Q) (n : nat) : list Q :=
  map (fun i => match n with
                | S (S m) => a + inject_Z (Z.of_nat i) * ((b - a) / inject_Z (Z.of_nat (S m)))
                | _ => a end) (seq 0 n).

(** insolation_ramp, lines 336-351: the loop stops at the first exception. *)
Fixpoint ramp_loop (s : events) (pts : list (Q * Q)) : events * res unit :=
  match pts with
  | [] => (s, Ok tt)
  | (t, si) :: pts' =>
    match add_solar_event s t si (29815#100) with
    | (s', Ok _) => ramp_loop s' pts'
    | (s', Raise x) => (s', Raise x)
    end
  end.
Definition insolation_ramp (s : events) (tstart tstop target tstep : Q) : events * res unit :=
  match solar_events s tstart with
  | (s1, Raise x) => (s1, Raise x)
  | (s1, Ok v) =>
    match arange tstart tstop tstep with
    | Raise x => (s1, Raise x)
    | Ok tr => ramp_loop s1 (combine tr (linspace (Sinsol v) target (length tr)))
    end
  end.

(** voltage_ramp, lines 354-369: line 367 passes the keyword [Vgrms], which
    add_grid_event (line 215) does not have: TypeError at the first point. *)
Definition voltage_ramp (s : events) (tstart tstop target tstep : Q) : events * res unit :=
  match grid_events s tstart with
  | (s1, Raise x) => (s1, Raise x)
  | (s1, Ok _) =>
    match arange tstart tstop tstep with
    | Raise x => (s1, Raise x)
    | Ok [] => (s1, Ok tt)
    | Ok (_ :: _) => (s1, Raise TypeError)
    end
  end.

(** create_random_events, lines 413-430: one choice (Some true = insolation,
    Some false = voltage, None = any other string, which only prints) and one
    draw per time point; [events_type] empty logs only. *)
Fixpoint random_loop (s : events) (pts : list (Q * (option bool * Q))) : events * res unit :=
  match pts with
  | [] => (s, Ok tt)
  | (t, (ch, r)) :: pts' =>
    let '(s', res) := match ch with
                      | Some true => create_random_insolation s t r
                      | Some false => create_random_voltage s t r
                      | None => (s, Ok tt) end in
    match res with Ok _ => random_loop s' pts' | Raise x => (s', Raise x) end
  end.

(** * The whole API as one step function *)
Inductive op :=
| OAddSolar (T si K : Q) | OAddGrid (T V a f : Q) | OAddLoad (T zr zi : Q)
| ORemSolar (T : option Q) (all : bool) | ORemGrid (T : Q) | ORemLoad (T : option Q) (all : bool)
| OQSolar (t : Q) | OQGrid (t : Q) | OQLoad (t : Q)
| OReset | ORandSolar (t r : Q) | ORandGrid (t r : Q)
| OInsRamp (a b tgt st : Q) | OVolRamp (a b tgt st : Q).

Inductive out := OUnit | OSolar (v : solarV) | OGrid (v : gridV) | OLoad (v : loadV).
Definition wrap {A} (f : A -> out) (p : events * res A) : events * res out :=
  (fst p, match snd p with Ok a => Ok (f a) | Raise e => Raise e end).
Definition unit_out (_ : unit) := OUnit.

Definition step (s : events) (o : op) : events * res out :=
  match o with
  | OAddSolar T si K => wrap unit_out (add_solar_event s T si K)
  | OAddGrid T V a f => wrap unit_out (add_grid_event s T V a f)
  | OAddLoad T zr zi => wrap unit_out (add_load_event s T zr zi)
  | ORemSolar T all => wrap unit_out (remove_solar_event s T all)
  | ORemGrid T => wrap unit_out (remove_grid_event s T)
  | ORemLoad T all => wrap unit_out (remove_load_event s T all)
  | OQSolar t => wrap OSolar (solar_events s t)
  | OQGrid t => wrap OGrid (grid_events s t)
  | OQLoad t => wrap OLoad (load_events s t)
  | OReset => (reset_counters s, Ok OUnit)
  | ORandSolar t r => wrap unit_out (create_random_insolation s t r)
  | ORandGrid t r => wrap unit_out (create_random_voltage s t r)
  | OInsRamp a b g d => wrap unit_out (insolation_ramp s a b g d)
  | OVolRamp a b g d => wrap unit_out (voltage_ramp s a b g d)
  end.

Fixpoint run (s : events) (os : list op) : events * list (res out) :=
  match os with
  | [] => (s, [])
  | o :: os' => let '(s1, r) := step s o in
                let '(s2, rs) := run s1 os' in (s2, r :: rs)
  end.
