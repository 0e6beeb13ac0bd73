(** Specification vocabulary for grid schedules without angle override. *)
From Verif Require Import Base EventsModel EventsSpec.

(** the (voltage, angle) part of a grid event *)
Definition va (e : ev gridV) : ev (Q * Q) := Ev (eT e) (Vgrid (eV e), Vangle (eV e)).
(** the whole event as a triple *)
Definition vaf (e : ev gridV) : ev (Q * Q * Q) := Ev (eT e) (Vgrid (eV e), Vangle (eV e), fgrid (eV e)).

(** the frequency that belongs to an angle step taken over one millisecond,
    around 60 Hz *)
Definition step_frequency (a_old a_new : Q) : Q := 60 + (a_new - a_old) / ((2 * math_pi) * (1 # 1000)).

(** the schedule a user expects who gives angles: voltage and angle as entered,
    frequency from the step relative to the event before (the default angle
    before the first event) *)
Fixpoint with_step_frequency (a_old : Q) (l : list (ev gridV)) : list (ev (Q * Q * Q)) :=
  match l with
  | [] => []
  | e :: l' => Ev (eT e) (Vgrid (eV e), Vangle (eV e), step_frequency a_old (Vangle (eV e)))
               :: with_step_frequency (Vangle (eV e)) l'
  end.

(** every step gives a frequency in the documented range *)
Definition steps_admissible (s : events) : Prop :=
  forall e, In e (with_step_frequency (ang_default (espec s)) (items (grid s))) ->
    frq_min (espec s) <= snd (eV e) <= frq_max (espec s).
