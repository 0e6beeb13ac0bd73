(** Model of reading the log back: ExceptionUtil.get_logs (exceptionutil.py:118-167).
    Text is a list of characters. *)
From Verif Require Import Base.
From Coq Require Import Ascii String.
Open Scope string_scope.
Open Scope list_scope.
Import ListNotations.
Local Notation "'do' x <- a ; b" := (bindR a (fun x => b)) (at level 200, x pattern, a at level 100, b at level 200).

Definition text := list ascii.

Fixpoint prefixb (p s : text) : bool :=
  match p, s with
  | [], _ => true
  | a :: p', b :: s' => Ascii.eqb a b && prefixb p' s'
  | _ :: _, [] => false
  end.
(** str.split(sep) of python, for a non-empty [sep]: cut at every non-overlapping
    occurrence, found from the left.  [skip] counts the characters of the
    occurrence still to be dropped, [cur] is the current piece, reversed. *)
Fixpoint split_from (sep : text) (skip : nat) (cur : text) (s : text) : list text :=
  match s with
  | [] => [rev cur]
  | c :: r =>
    match skip with
    | Datatypes.S k => split_from sep k cur r
    | O => if prefixb sep (c :: r) then rev cur :: split_from sep (List.length sep - 1) [] r
           else split_from sep O (c :: cur) r
    end
  end.
Definition split (sep s : text) : list text := split_from sep 0 [] s.

(** the characters str.splitlines cuts at (code points below 256) *)
Definition line_end (c : ascii) : bool := existsb (Nat.eqb (nat_of_ascii c)) [10; 11; 12; 13; 28; 29; 30; 133]%nat.
(** str.splitlines: the text after the last line end counts only if non-empty.
    Simplification: "\r\n" is taken as two line ends (the file is read in text
    mode, which turns it into "\n"). *)
Fixpoint lines_from (cur s : text) : list text :=
  match s with
  | [] => match cur with [] => [] | _ => [rev cur] end
  | c :: r => if line_end c then rev cur :: lines_from [] r else lines_from (c :: cur) r
  end.
Definition splitlines (s : text) : list text := lines_from [] s.

(** str.strip: white space removed at both ends *)
Definition space (c : ascii) : bool := existsb (Nat.eqb (nat_of_ascii c)) [9; 10; 11; 12; 13; 28; 29; 30; 31; 32; 133; 160]%nat.
Fixpoint lstrip (s : text) : text := match s with c :: r => if space c then lstrip r else s | [] => [] end.
Definition strip (s : text) : text := rev (lstrip (rev (lstrip s))).

(** the value of an item of a log entry: text, a time, or the decoded message of
    an error *)
Inductive lval (T J : Type) := LText (s : text) | LTime (t : T) | LError (j : J).
Arguments LText {T J}. Arguments LTime {T J}. Arguments LError {T J}.

(** the columns of the default formatter (exceptionutil.py:38-40) *)
Inductive column := Asctime | Name | Filename | FuncName | Levelname | Message | ThreadName | Process.
Definition default_header := [Asctime; Name; Filename; FuncName; Levelname; Message; ThreadName; Process].
Definition column_eqb (a b : column) : bool :=
  match a, b with
  | Asctime, Asctime | Name, Name | Filename, Filename | FuncName, FuncName | Levelname, Levelname
  | Message, Message | ThreadName, ThreadName | Process, Process => true
  | _, _ => false
  end.
Fixpoint of_string (s : String.string) : text := match s with String.EmptyString => [] | String.String c r => c :: of_string r end.

Section Read.
  (** [T]: times, with the parser of dateutil; [J]: decoded json objects, with
      json.loads and the lookup of a key (a text; other values are not used);
      [veqb]: python's equality of values; [basename]: os.path.basename *)
  Context {T J : Type} (ptime : text -> res T) (pjson : text -> res J) (jget : J -> String.string -> res text)
          (veqb : lval T J -> lval T J -> bool) (basename : text -> text).
  Definition log := list (column * lval T J).
  Fixpoint lget (c : column) (l : log) : option (lval T J) :=
    match l with [] => None | (k, v) :: r => if column_eqb c k then Some v else lget c r end.
  Fixpoint lset (c : column) (v : lval T J) (l : log) : log :=
    match l with [] => [] | (k, w) :: r => if column_eqb c k then (k, v) :: r else (k, w) :: lset c v r end.

  (** exceptionutil.py:144-146, the items of one line (zip drops what is left over) *)
  Definition items (sep line : text) : log := combine default_header (map (fun p => LText (strip p)) (split sep line)).
  (** exceptionutil.py:147-154 *)
  Definition convert_time (l : log) : res log :=
    match lget Asctime l with
    | Some (LText s) => do t <- ptime s; Ok (lset Asctime (LTime t) l)
    | _ => Ok l
    end.
  Definition is_error (l : log) : bool :=
    match lget Levelname l with Some (LText s) => if list_eq_dec ascii_dec s (of_string "ERROR") then true else false | _ => false end.
  Definition convert_error (l : log) : res log :=
    if is_error l then
      match lget Message l with
      | Some (LText s) =>
        do j <- pjson s;
        let l := lset Message (LError j) l in
        do l <- (match lget Filename l with Some _ => do f <- jget j "filename"; Ok (lset Filename (LText (basename f)) l) | None => Ok l end);
        match lget FuncName l with Some _ => do f <- jget j "funcName"; Ok (lset FuncName (LText (basename f)) l) | None => Ok l end
      | _ => Raise KeyError
      end
    else Ok l.
  (** exceptionutil.py:156-162; [None] for a filter that is absent or empty *)
  Definition selected (filter : log) (l : log) : bool :=
    forallb (fun cv => match lget (fst cv) l with Some v => veqb v (snd cv) | None => false end) filter.
  Fixpoint read_lines (sep : text) (filter : log) (ls : list text) : res (list log) :=
    match ls with
    | [] => Ok []
    | s :: r =>
      do l <- convert_time (items sep s); do l <- convert_error l;
      do rest <- read_lines sep filter r;
      Ok (if selected filter l then l :: rest else rest)
    end.
  (** exceptionutil.py:118-167 with the default formatter; [file] is the content
      of the log file.  The order of the loop (a failure in a later line is only
      raised after earlier lines are done) has no effect on the result. *)
  Definition get_logs (filter : log) (file : text) : res (list log) :=
    read_lines (of_string "::") filter (splitlines file).
End Read.

(** What the logger writes: exceptionutil.py:38-40 and 64-76, one line per
    record, the columns joined by the separator. *)
Fixpoint joined (sep : text) (fields : list text) : text :=
  match fields with [] => [] | [f] => f | f :: r => f ++ sep ++ joined sep r end.
Definition newline : ascii := ascii_of_nat 10.
Definition written (records : list (list text)) : text :=
  flat_map (fun r => joined (of_string "::") r ++ [newline]) records.
