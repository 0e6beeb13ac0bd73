(** time_series_phase_angle of /repo/pvder/dynamic_simulation.py and the 'phase_angle'
    plot of simulation_utilities.py. *)
From Coq Require Import List.
From Verif Require Import RBase PhasorModel ODEModel.
Import ListNotations.

(** the voltage series collected before: vta_t.., va_t.., vaHV_t.., vag_t.. *)
Inductive place := Inverter | LowSide | HighSide | GridSource.
Definition voltages := place -> phase -> list cx.
(** dynamic_simulation.py:616-638; np.angle element by element ([cphase]); [three] is
    membership in templates.three_phase_models.  A series that is not computed has no
    attribute ([None]).  The assertion of line 619 is a chained comparison of the two
    lengths (the comparison with None is always true). *)
Definition time_series_phase_angle (three alone : bool) (v : voltages) : res (place -> phase -> option (list R)) :=
  if Nat.eqb (length (v LowSide PA)) (length (v Inverter PA)) then
    Ok (fun pl ph =>
      if (match ph with PA => true | _ => three end && match pl with Inverter | LowSide => true | _ => alone end)%bool
      then Some (map cphase (v pl ph)) else None)
  else Raise Base.AssertionError.
(** simulation_utilities.py:242-250: element-wise difference of two series of one run *)
Definition angle_difference (l1 l2 : list R) : list R := map (fun q => fst q - snd q)%R (combine l1 l2).
