(** The optional results computed when DO_EXTRA_CALCULATIONS is set
    (/repo/pvder/DER_utilities.py:40), over exact reals. *)
From Verif Require Import RBase PhasorModel PVModel ODEModel.

(** Vabrms_calc, Vtabrms_calc: DER_components_three_phase.py:137-147,
    balanced.py:135-148, constant_Vdc.py:141-154, no_Vrms_filter.py:137-147.
    The compiled type calls utility_functions_numba.Vabrms_calc (NbUtil). *)
Definition Vabrms_calc (va vb : cx) : R := cabs (csub va vb) / sqrt 2.
(** S_PCCph_calc, DER_utilities.py:346-351 *)
Definition S_PCCph_calc (v i : cx) : cx := cscale (1 / 2) (cmul v (conj i)).

(** update_power and update_RMS of a three-phase type
    (three_phase.py:194-229): what they store.  [x_extra] holds S_PCCa, S_PCCb,
    S_PCCc, Vtabrms, Vabrms, written only when DO_EXTRA_CALCULATIONS is set.
    Simplification: the stand-alone load and grid powers are left out. *)
Record phases := Phases { x_va : cx; x_vb : cx; x_vc : cx; x_vta : cx; x_vtb : cx; x_vtc : cx; x_ia : cx; x_ib : cx; x_ic : cx }.
Record results := Results { x_S : cx; x_S_PCC : cx; x_Vtrms : R; x_Vrms : R; x_Irms : R;
                            x_extra : option (cx * cx * cx * R * R) }.
Definition three_power (a b c ia ib ic : cx) : cx := cadd (cadd (S_ph a ia) (S_ph b ib)) (S_ph c ic).
Definition update (extra : bool) (old : option (cx * cx * cx * R * R)) (x : phases) : results :=
  Results (three_power (x_vta x) (x_vtb x) (x_vtc x) (x_ia x) (x_ib x) (x_ic x))
          (three_power (x_va x) (x_vb x) (x_vc x) (x_ia x) (x_ib x) (x_ic x))
          (Urms_calc (x_vta x) (x_vtb x) (x_vtc x)) (Urms_calc (x_va x) (x_vb x) (x_vc x)) (Urms_calc (x_ia x) (x_ib x) (x_ic x))
          (if extra then Some (S_PCCph_calc (x_va x) (x_ia x), S_PCCph_calc (x_vb x) (x_ib x), S_PCCph_calc (x_vc x) (x_ic x),
                               Vabrms_calc (x_vta x) (x_vtb x), Vabrms_calc (x_va x) (x_vb x))
           else old).
