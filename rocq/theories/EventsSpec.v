(** Specification vocabulary for event schedules, independent of the
    counters and loops of the implementation. *)
From Verif Require Import Base EventsModel.

(** strictly increasing in time (hence at most one event per time) *)
Definition increasing {A} (l : list (ev A)) : Prop :=
  StronglySorted (fun a b => eT a < eT b) l.

(** the abstract map: value scheduled exactly at time [t] *)
Fixpoint lookup {A} (l : list (ev A)) (t : Q) : option A :=
  match l with
  | [] => None
  | e :: l' => if qeq (eT e) t then Some (eV e) else lookup l' t
  end.

(** [v] is what a reader of the schedule expects at time [t]: the value of the
    latest event that has started, or the default before the first event *)
Definition scheduled {A} (dflt : A) (l : list (ev A)) (t : Q) (v : A) : Prop :=
  (exists e, In e l /\ eT e <= t /\ v = eV e /\
             forall e', In e' l -> eT e' <= t -> eT e' <= eT e)
  \/ ((forall e, In e l -> t < eT e) /\ v = dflt).

(** at most one event boundary in (p, t] — [None] stands for "before everything" *)
Definition after (p : option Q) (T : Q) : Prop :=
  match p with None => True | Some q => q < T end.
Definition not_before (p : option Q) (t : Q) : Prop :=
  match p with None => True | Some q => q <= t end.
Definition at_most_one_boundary {A} (l : list (ev A)) (p : option Q) (t : Q) : Prop :=
  forall e1 e2, In e1 l -> In e2 l ->
    after p (eT e1) -> after p (eT e2) -> eT e1 <= t -> eT e2 <= t -> eT e1 == eT e2.

(** a forward run that crosses at most one boundary per step *)
Fixpoint forward {A} (l : list (ev A)) (p : option Q) (ts : list Q) : Prop :=
  match ts with
  | [] => True
  | t :: ts' => not_before p t /\ at_most_one_boundary l p t /\ forward l (Some t) ts'
  end.

(** documented admissible values *)
Definition solar_ok (sp : spec) (v : solarV) : Prop :=
  ins_min sp <= Sinsol v <= ins_max sp /\ 250 <= Tactual v <= 375.
Definition grid_ok (sp : spec) (v : gridV) : Prop :=
  vol_min sp <= Vgrid v <= vol_max sp /\ frq_min sp <= fgrid v <= frq_max sp.
Definition load_ok (v : loadV) : Prop := 0 <= Zre v.

(** a well-formed set of schedules *)
Definition schedules_ok (s : events) : Prop :=
  increasing (items (solar s)) /\ increasing (items (grid s)) /\ increasing (items (load s)) /\
  (forall e, In e (items (solar s)) -> solar_ok (espec s) (eV e)) /\
  (forall e, In e (items (grid s)) -> grid_ok (espec s) (eV e)) /\
  (forall e, In e (items (load s)) -> load_ok (eV e)).

Definition totals_ok (s : events) : Prop :=
  total (solar s) = len (items (solar s)) /\
  total (grid s) = len (items (grid s)) /\
  total (load s) = len (items (load s)).

(** states reachable from a fresh instance by any API calls *)
Definition reachable (s : events) : Prop :=
  exists sp ov a b c os, s = fst (run (init_events sp ov a b c) os).

(** results of a sequence of queries on one object *)
Fixpoint solar_run (s : events) (ts : list Q) : list (res solarV) :=
  match ts with
  | [] => [] | t :: ts' => snd (solar_events s t) :: solar_run (fst (solar_events s t)) ts'
  end.
Fixpoint load_run (s : events) (ts : list Q) : list (res loadV) :=
  match ts with
  | [] => [] | t :: ts' => snd (load_events s t) :: load_run (fst (load_events s t)) ts'
  end.
Fixpoint grid_run (s : events) (ts : list Q) : list (res gridV) :=
  match ts with
  | [] => [] | t :: ts' => snd (grid_events s t) :: grid_run (fst (grid_events s t)) ts'
  end.

(** times never decrease *)
Fixpoint nondecreasing (p : option Q) (ts : list Q) : Prop :=
  match ts with [] => True | t :: ts' => not_before p t /\ nondecreasing (Some t) ts' end.

(** the voltage/frequency part of a grid event *)
Definition vf (e : ev gridV) : ev (Q * Q) := Ev (eT e) (Vgrid (eV e), fgrid (eV e)).

(** the last event is seen within 3 ms of its start (or was active before) *)
Definition last_seen_in_window {A} (l : list (ev A)) (p : option Q) (t : Q) : Prop :=
  forall e, In e l -> (forall e', In e' l -> eT e' <= eT e) -> eT e + (3#1000) <= t ->
  exists q, p = Some q /\ eT e <= q.
Fixpoint windowed {A} (l : list (ev A)) (p : option Q) (ts : list Q) : Prop :=
  match ts with [] => True | t :: ts' => last_seen_in_window l p t /\ windowed l (Some t) ts' end.

(** phase angle as a function of the active frequency alone *)
Definition angle_follows_frequency (s : events) (v : gridV) : Prop :=
  Vangle v == ang_default (espec s) + 2 * math_pi * (fgrid v - frq_default (espec s)) * (1 # 1000).
