(** Model of the DC-link reference schedule of /repo/pvder/DER_utilities.py
    (class PVDER_ModelUtilities, lines 41-45 and 525-638). *)
From Verif Require Import Base EventsModel.

(** One DER's view of its DC-link reference.  Entries of [refs] are the
    dictionaries {'t': _, 'Vdc_ref': _} (value in per unit); [total]/[counter]
    of the schedule are Vdc_ref_total / Vdc_ref_counter.  [vcur] is
    self.Vdc_ref (p.u.); [vmin]/[vmax] are Vdcmpp_min/Vdcmpp_max (V); [vbase]
    is Vdcbase (V); [vdel]/[vdelt] are del_Vdc_ref / del_t_Vdc_ref.
    In the code Vdc_ref_list is a class attribute shared by all DERs; the
    single-DER model owns it, the sharing is modelled by [vworld] below. *)
Record vdc := Vdc {
  refs : sched Q; vcur : Q;
  vmin : Q; vmax : Q; vbase : Q; vdel : Q; vdelt : Q }.

Definition set_refs (v : vdc) sc := Vdc sc (vcur v) (vmin v) (vmax v) (vbase v) (vdel v) (vdelt v).
Definition set_vcur (v : vdc) x := Vdc (refs v) x (vmin v) (vmax v) (vbase v) (vdel v) (vdelt v).
Definition set_vdel (v : vdc) x := Vdc (refs v) (vcur v) (vmin v) (vmax v) (vbase v) x (vdelt v).

(** Fresh DER: DER_utilities.py:41-45, defaults.py:27-28
    (del_Vdc_ref = 2.0, del_t_Vdc_ref = 0.5); Vdc_ref is set by
    initialize_inverter_ratings (DER_check_and_initialize.py:401). *)
Definition init_vdc (cur lo hi base : Q) : vdc :=
  Vdc (Sched [] 0 0) cur lo hi base 2 (1#2).

(** set_Vdc_ref, DER_utilities.py:525-534. *)
Definition set_Vdc_ref (mppt_enable : bool) (Vdcmpp Vdcbase Vdcnominal : Q) : Q :=
  if mppt_enable then Vdcmpp / Vdcbase else Vdcnominal.

(** MPP_table, DER_utilities.py:537-548.  [poly] is numpy.polyval(self.z, Sinsol). *)
Definition MPP_table (use_poly : bool) (poly Vdcrated lo hi base : Q) : Q :=
  let v := if use_poly then poly else Vdcrated in
  py_max (py_min v hi) lo / base.

(** add_Vdc_ref, DER_utilities.py:551-570 (the remove-while-iterating loop is
    the same as in add_solar_event). *)
Definition add_Vdc_ref (v : vdc) (t x : Q) : vdc * res unit :=
  if (qlt x (vmin v) || qlt (vmax v) x)%bool then (v, Raise ValueError)
  else let l := insert_event qeq t (x / vbase v) (items (refs v)) in
       (set_refs v (Sched l (len l) (counter (refs v))), Ok tt).

(** get_Vdc_ref, DER_utilities.py:573-593: the branch structure of
    [query_sched], with self.Vdc_ref as the value before the first reference. *)
Definition get_Vdc_ref (v : vdc) (t : Q) : vdc * res Q :=
  let '(sc, r) := query_sched (vcur v) (refs v) t in (set_refs v sc, r).

(** update_Vdc_ref, DER_utilities.py:324-329. *)
Definition update_Vdc_ref (v : vdc) (t : Q) : vdc * res unit :=
  let '(v1, r) := get_Vdc_ref v t in
  match r with Ok x => (set_vcur v1 x, Ok tt) | Raise e => (v1, Raise e) end.


(** [l[-1] = x] on a numpy array *)
Definition set_last (l : list Q) (x : Q) : res (list Q) :=
  match l with [] => Raise IndexError | _ => Ok (removelast l ++ [x]) end.

(** Vdc_ref_ramp, DER_utilities.py:596-616.  trange[i] raises IndexError when
    i is out of range (enumerate pairs are therefore taken with py_index). *)
Fixpoint with_times (i : nat) (tr : list Q) (xs : list Q) : list (res Q * Q) :=
  match xs with [] => [] | x :: xs' => (py_index tr (Z.of_nat i), x) :: with_times (S i) tr xs' end.
Fixpoint add_loop_r (v : vdc) (pts : list (res Q * Q)) : vdc * res unit :=
  match pts with
  | [] => (v, Ok tt)
  | (Raise e, _) :: _ => (v, Raise e)
  | (Ok t, x) :: pts' =>
    match add_Vdc_ref v t x with
    | (v1, Ok _) => add_loop_r v1 pts'
    | (v1, Raise e) => (v1, Raise e)
    end
  end.

Definition Vdc_ref_ramp (v : vdc) (tstart target : Q) : vdc * res unit :=
  let '(v1, r) := get_Vdc_ref v tstart in
  match r with
  | Raise e => (v1, Raise e)
  | Ok x =>
    let start := x * vbase v1 in
    if qle (py_abs (start - target)) (vdel v1) then add_Vdc_ref v1 tstart target
    else
      let v2 := if qlt target start then set_vdel v1 (- vdel v1) else v1 in
      match bindR (arange (start + vdel v2) (target + vdel v2) (vdel v2))
                  (fun l => set_last l target) with
      | Raise e => (v2, Raise e)
      | Ok xs =>
        match arange tstart (tstart + inject_Z (len xs)) (vdelt v2) with
        | Raise e => (v2, Raise e)
        | Ok tr => add_loop_r v2 (with_times 0 tr xs)
        end
      end
  end.

(** reset_reference_counters, DER_utilities.py:633-638. *)
Definition reset_reference_counters (v : vdc) : vdc :=
  set_refs v (Sched (items (refs v)) (total (refs v)) 0).

(** API operations on one DER. *)
Inductive vop :=
| VAdd (t x : Q) | VUpdate (t : Q) | VRamp (t x : Q) | VReset
| VHold (x : Q).   (* DER_features.py:243: self.Vdc_ref = self.Vdc while disconnected *)
Definition vstep (v : vdc) (o : vop) : vdc * res unit :=
  match o with
  | VAdd t x => add_Vdc_ref v t x
  | VUpdate t => update_Vdc_ref v t
  | VRamp t x => Vdc_ref_ramp v t x
  | VReset => (reset_reference_counters v, Ok tt)
  | VHold x => (set_vcur v x, Ok tt)
  end.
Fixpoint vrun (v : vdc) (os : list vop) : vdc * list (res unit) :=
  match os with
  | [] => (v, [])
  | o :: os' => let '(v1, r) := vstep v o in let '(v2, rs) := vrun v1 os' in (v2, r :: rs)
  end.

(** * Sharing between DERs
    DER_utilities.py:41 makes Vdc_ref_list a class attribute that is only ever
    mutated in place (remove/append/sort), so all DER instances of a process
    use one list; Vdc_ref_total, Vdc_ref_counter, Vdc_ref and del_Vdc_ref are
    per-instance once assigned.  [vw_list] is the shared list; the list stored
    inside an instance is ignored. *)
Record vworld := VWorld { vw_list : list (ev Q); vw_insts : list vdc }.
Definition view_vdc (w : vworld) (v : vdc) : vdc :=
  set_refs v (Sched (vw_list w) (total (refs v)) (counter (refs v))).
Fixpoint set_nth {A} (l : list A) (i : nat) (x : A) : list A :=
  match l, i with
  | [], _ => [] | _ :: l', O => x :: l' | y :: l', S j => y :: set_nth l' j x
  end.
Definition vcall (w : vworld) (i : nat) (o : vop) : vworld * res unit :=
  match nth_error (vw_insts w) i with
  | None => (w, Raise NameError)
  | Some v => let '(v1, r) := vstep (view_vdc w v) o in
              (VWorld (items (refs v1)) (set_nth (vw_insts w) i v1), r)
  end.
