(** Vocabulary of the configuration model: the Python values a JSON file or a
    keyword argument can hold, [isinstance], dictionaries, the [in] operator and
    subscripting.  No property is stated here. *)
From Coq Require Export String.
From Verif Require Import Base.
Open Scope string_scope.

(** Python values.  [VGrid] stands for an instance of the class Grid.  Floats
    and the parts of complex numbers are exact rationals. *)
Inductive pv :=
| VInt (z : Z) | VFloat (q : Q) | VBool (b : bool) | VStr (s : string)
| VComplex (re im : Q)
| VDict (d : list (string * pv)) | VTuple (l : list pv) | VList (l : list pv)
| VGrid | VNone.

(** A Python dictionary with string keys, in insertion order.  JSON objects only
    have string keys. *)
Definition dict := list (string * pv).

Inductive ty := TInt | TFloat | TBool | TStr | TComplex | TDict | TTuple | TGrid.

(** isinstance(v, t); [bool] is a subclass of [int]. *)
Definition isinst1 (v : pv) (t : ty) : bool :=
  match t, v with
  | TInt, VInt _ | TInt, VBool _ | TFloat, VFloat _ | TBool, VBool _ | TStr, VStr _
  | TComplex, VComplex _ _ | TDict, VDict _ | TTuple, VTuple _ | TGrid, VGrid => true
  | _, _ => false
  end.
(** isinstance(v, (t1, t2, ...)) *)
Definition isinstance (v : pv) (ts : list ty) : bool := existsb (isinst1 v) ts.

(** bool(v) *)
Definition truthy (v : pv) : bool :=
  match v with
  | VInt z => negb (z =? 0)%Z
  | VFloat q => negb (qeq q 0)
  | VBool b => b
  | VStr s => negb (String.eqb s "")
  | VComplex a b => negb (qeq a 0 && qeq b 0)
  | VDict d => match d with [] => false | _ => true end
  | VTuple l | VList l => match l with [] => false | _ => true end
  | VGrid => true
  | VNone => false
  end.

(** d.get(k) *)
Fixpoint dget {A} (k : string) (d : list (string * A)) : option A :=
  match d with
  | [] => None
  | (k', v) :: r => if String.eqb k k' then Some v else dget k r
  end.
(** k in d *)
Definition dmem {A} (k : string) (d : list (string * A)) : bool :=
  match dget k d with Some _ => true | None => false end.
(** d[k] = v (an existing key keeps its position, a new key goes last) *)
Fixpoint dset {A} (k : string) (v : A) (d : list (string * A)) : list (string * A) :=
  match d with
  | [] => [(k, v)]
  | (k', v') :: r => if String.eqb k k' then (k', v) :: r else (k', v') :: dset k v r
  end.
(** d.update(e) *)
Definition dupdate {A} (d e : list (string * A)) : list (string * A) :=
  fold_left (fun acc kv => dset (fst kv) (snd kv) acc) e d.

(** k in s for strings: substring test *)
Definition substr (k s : string) : bool :=
  match String.index 0 k s with Some _ => true | None => false end.
(** k in v for an arbitrary value: key of a dictionary, substring of a string,
    element of a list or tuple; TypeError for numbers, None, ... *)
Definition pmem (k : string) (v : pv) : res bool :=
  match v with
  | VDict d => Ok (dmem k d)
  | VStr s => Ok (substr k s)
  | VList l | VTuple l => Ok (existsb (fun e => match e with VStr s => String.eqb s k | _ => false end) l)
  | _ => Raise TypeError
  end.
(** v[k] for an arbitrary value: strings, lists, tuples and numbers cannot be
    subscripted with a string *)
Definition pget (k : string) (v : pv) : res pv :=
  match v with
  | VDict d => match dget k d with Some x => Ok x | None => Raise KeyError end
  | _ => Raise TypeError
  end.
(** d[k] *)
Definition dsub {A} (k : string) (d : list (string * A)) : res A :=
  match dget k d with Some x => Ok x | None => Raise KeyError end.

(** A loop whose body may raise. *)
Fixpoint foldR {A B} (f : A -> B -> res A) (a : A) (l : list B) : res A :=
  match l with
  | [] => Ok a
  | b :: r => bindR (f a b) (fun a' => foldR f a' r)
  end.

Notation "'do' x <- a ; b" := (bindR a (fun x => b)) (at level 200, x pattern, a at level 100, b at level 200).
