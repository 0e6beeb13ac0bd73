(** Specification vocabulary for the DC-link reference. *)
From Verif Require Import Base EventsModel EventsSpec VdcModel.

(** DER states reachable by any sequence of reference operations *)
Definition vreachable (v : vdc) : Prop :=
  exists cur lo hi base os, v = fst (vrun (init_vdc cur lo hi base) os).

(** Vdc_ref after each of a sequence of model evaluations *)
Fixpoint reference_run (v : vdc) (ts : list Q) : list (res unit * Q) :=
  match ts with
  | [] => []
  | t :: ts' => let '(v1, r) := update_Vdc_ref v t in (r, vcur v1) :: reference_run v1 ts'
  end.
