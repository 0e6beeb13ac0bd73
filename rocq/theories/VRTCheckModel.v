(** Model of check_VRT_settings, DER_features.py:439-491. *)
From Verif Require Import Base EventsModel VdcModel RTModel.

(** Python's sorted on numbers (stable insertion sort gives the same list) and
    list equality *)
Fixpoint insert (leb : Q -> Q -> bool) (x : Q) (l : list Q) : list Q :=
  match l with
  | [] => [x]
  | y :: l' => if leb x y then x :: y :: l' else y :: insert leb x l'
  end.
Fixpoint isort (leb : Q -> Q -> bool) (l : list Q) : list Q :=
  match l with [] => [] | x :: l' => insert leb x (isort leb l') end.
Fixpoint list_eqb (a b : list Q) : bool :=
  match a, b with
  | [], [] => true
  | x :: a', y :: b' => (qeq x y && list_eqb a' b')%bool
  | _, _ => false
  end.
Definition py_sorted (reverse : bool) (l : list Q) : list Q :=
  isort (if reverse then (fun x y => qle y x) else qle) l.

(** class attributes V_threshold_high_limit etc., DER_features.py *)
Definition V_high_limit : Q := 3#2.
Definition t_high_limit : Q := 100.
Definition t_disconnect_low : Q := 1#120.
Definition t_reconnect_low : Q := 1#10.

Definition valid_mode (m : zmode) : bool := match m with OtherMode => false | _ => true end.

(** the loop over zones, lines 452-484; [seen] is V_threshold_list so far *)
Fixpoint check_zones (lv : bool) (seen : list Q) (zs : list zone) : res unit :=
  match zs with
  | [] => Ok tt
  | z :: zs' =>
    let l := seen ++ [z_V z] in
    if (if lv then qle 1 (z_V z) else qle (z_V z) 1) then Raise ValueError
    else if negb (list_eqb l (py_sorted lv l)) then Raise ValueError
    else if qle (z_V z) 0 then Raise ValueError
    else if qle V_high_limit (z_V z) then Raise ValueError
    else if qle (z_t z) 0 then Raise ValueError
    else if qle t_high_limit (z_t z) then Raise ValueError
    else if negb (valid_mode (z_mode z)) then Raise ValueError
    else check_zones lv l zs'
  end.
(** lines 486-490 *)
Definition check_delays (dd rd : Q) : res unit :=
  if qlt dd t_disconnect_low then Raise ValueError
  else if qlt rd t_reconnect_low then Raise ValueError
  else Ok tt.
(** lines 441-490 *)
Definition check_VRT_settings (lv hv : list zone) (dd rd : Q) : res unit :=
  bindR (check_zones true [] lv) (fun _ =>
  bindR (check_delays dd rd) (fun _ =>
  bindR (check_zones false [] hv) (fun _ => check_delays dd rd))).
