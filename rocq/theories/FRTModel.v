(** Frequency ride-through settings shared between DER objects. *)
From Verif Require Import Base EventsModel VdcModel RTModel.

(** The LFRT dictionary is taken from the configuration without a copy
    (DER_features.py:569-573 and 672: self.LFRT_dict = self.RT_config['LFRT'];
    DER_check_and_initialize.py:56-72: the template's or configuration's own
    dictionary), so DER objects built from the same template or configuration
    share one zone list [w_lf].  (The voltage zones are deep-copied,
    DER_features.py:313-314.) *)
Record rworld := RWorld { w_ders : list rt; w_lf : list fzone }.
Definition with_lf (s : rt) (lf : list fzone) : rt := up_lf s lf (r_lftrip s).
Fixpoint upd {A} (l : list A) (i : nat) (x : A) : list A :=
  match l, i with
  | [], _ => []
  | _ :: l', O => x :: l'
  | y :: l', S j => y :: upd l' j x
  end.
(** DER number [i] evaluates its ride-through logic *)
Definition weval (w : rworld) (i : nat) (x : Q * meas) : rworld * res unit :=
  match nth_error (w_ders w) i with
  | None => (w, Ok tt)
  | Some s => let '(s', r) := rt_eval (with_lf s (w_lf w)) x in
              (RWorld (upd (w_ders w) i s') (r_lf s'), r)
  end.
Fixpoint wrun (w : rworld) (xs : list (nat * (Q * meas))) : rworld * res unit :=
  match xs with
  | [] => (w, Ok tt)
  | (i, x) :: xs' => match weval w i x with
                     | (w1, Ok _) => wrun w1 xs'
                     | (w1, Raise e) => (w1, Raise e)
                     end
  end.

(** FRT_INSTANTANEOUS_TRIP setter, DER_features.py:752-768, on the shared
    dictionary: setting it writes 30/60 s into every level, clearing it copies
    each limit from RT_config['LFRT'], i.e. from the same dictionary. *)
Definition set_FRT_INSTANTANEOUS_TRIP (b : bool) (lf : list fzone) : list fzone :=
  if b then map (fun z => FZone (f_F z) (1#2) (f_start z)) lf else lf.
