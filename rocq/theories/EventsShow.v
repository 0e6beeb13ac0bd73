(** Model of SimulationEvents.show_events and simulation_events_list
    (/repo/pvder/simulation_events.py:372-388, 454-459). *)
From Coq Require Import String.
From Verif Require Import Base EventsModel.
Open Scope string_scope.

(** An event dictionary as show_events sees it: its keys and numeric items.
    The three shapes are those built at simulation_events.py:206, 240, 267. *)
Inductive payload := PSolar (v : solarV) | PGrid (v : gridV) | PLoad (v : loadV).
Definition keys (p : payload) : list string :=
  match p with
  | PSolar _ => ["T"; "Sinsol"; "Tactual"]
  | PGrid _ => ["T"; "Vgrid"; "Vgrid_angle"; "fgrid"]
  | PLoad _ => ["T"; "Zload1_actual"]
  end.
Definition has_key (k : string) (p : payload) : bool := existsb (String.eqb k) (keys p).

(** simulation_events_list, lines 454-459: one list, stably sorted by 'T'. *)
Definition tag {A} (f : A -> payload) (e : ev A) : ev payload := Ev (eT e) (f (eV e)).
Definition simulation_events_list (s : events) : list (ev payload) :=
  sort_T (List.map (tag PSolar) (items (solar s)) ++ List.map (tag PGrid) (items (grid s)) ++ List.map (tag PLoad) (items (load s)))%list.

(** What a printed line shows (numbers before rounding to the printed digits). *)
Inductive line :=
| Totals (nsolar ngrid : nat)
| SolarLine (T S K : Q)
| GridLine (T V a f : Q)
| LoadLine (T re im : Q)
| NoEvents.

(** Item access event['...']: KeyError when the key is missing. *)
Definition solar_line (e : ev payload) : res line :=
  match eV e with PSolar v => Ok (SolarLine (eT e) (Sinsol v) (Tactual v)) | _ => Raise KeyError end.
Definition grid_line (e : ev payload) : res line :=
  match eV e with PGrid v => Ok (GridLine (eT e) (Vgrid v) (Vangle v) (fgrid v)) | _ => Raise KeyError end.
Definition load_line (e : ev payload) : res line :=
  match eV e with PLoad v => Ok (LoadLine (eT e) (Zre v) (Zim v)) | _ => Raise KeyError end.

(** Lines 379-384: three independent ifs; ['S' and 'Tactual' in keys] tests only
    'Tactual', ['Vgrid' and 'Vgrid_angle' and 'fgrid' in keys] only 'fgrid'. *)
Definition show_if (b : bool) (l : res line) (k : res (list line)) : res (list line) :=
  if b then bindR l (fun x => bindR k (fun r => Ok (x :: r))) else k.
Definition show_event (e : ev payload) (k : res (list line)) : res (list line) :=
  show_if (has_key "Tactual" (eV e)) (solar_line e)
  (show_if (has_key "fgrid" (eV e)) (grid_line e)
  (show_if (has_key "Zload1_actual" (eV e)) (load_line e) k)).

(** show_events, lines 372-388 (after the heading with the instance name). *)
Definition show_events (s : events) : res (list line) :=
  let l := simulation_events_list s in
  bindR (match l with [] => Ok [NoEvents] | _ => List.fold_right show_event (Ok []) l end)
    (fun r => Ok (Totals (List.length (items (solar s))) (List.length (items (grid s))) :: r)).
