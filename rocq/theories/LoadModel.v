(** Model of update_Zload1 (/repo/pvder/DER_utilities.py:332-343), called by every
    ODE_model evaluation (e.g. DER_components_three_phase.py:278). *)
From Coq Require Import String.
From Verif Require Import Base EventsModel ModifyModel.
Open Scope string_scope.

(** Zload1 in p.u. (real and imaginary part) and the events object.  Complex
    division by the real number BaseValues.Zbase. *)
Record ld := Ld { l_z : loadV; l_ev : events }.
Definition per_unit (Zb : Q) (z : loadV) : loadV := LoadV (Zre z / Zb) (Zim z / Zb).
(** abs(self.Zload1 - Zload1_new) > 0.0 *)
Definition differs (a b : loadV) : bool := negb (qeq (Zre a) (Zre b) && qeq (Zim a) (Zim b)).
(** The message of line 341 evaluates self.S_load1_calc() after Zload1 has been
    assigned; on a class without that method this raises AttributeError.  The
    value is only printed. *)
Definition update_Zload1 (cls : string) (Zb : Q) (standAlone : bool) (s : ld) (t : Q) : ld * res unit :=
  if standAlone then
    match load_events (l_ev s) t with
    | (e, Raise x) => (Ld (l_z s) e, Raise x)
    | (e, Ok z) =>
      let znew := per_unit Zb z in
      if differs (l_z s) znew
      then (Ld znew e, if defined_for cls "S_load1_calc" then Ok tt else Raise AttributeError)
      else (Ld (l_z s) e, Ok tt)
    end
  else (s, Ok tt).
(** evaluations at the times [ts]; an exception ends the simulation *)
Fixpoint load_evals (cls : string) (Zb : Q) (standAlone : bool) (s : ld) (ts : list Q) : list loadV * res unit :=
  match ts with
  | [] => ([], Ok tt)
  | t :: ts' =>
    match update_Zload1 cls Zb standAlone s t with
    | (s1, Ok _) => let '(l, r) := load_evals cls Zb standAlone s1 ts' in (l_z s1 :: l, r)
    | (s1, Raise e) => ([], Raise e)
    end
  end.
