(** Specification vocabulary for the simulation layer, independent of the
    statement lists of SimModel.v. *)
From Coq Require Import String.
From Verif Require Import Base EventsModel SimModel.
Open Scope string_scope.

(** ** The state vector of a model type *)
Definition phase_states (p : string) : list string :=
  ["i" ++ p ++ "R"; "i" ++ p ++ "I"; "x" ++ p ++ "R"; "x" ++ p ++ "I"; "u" ++ p ++ "R"; "u" ++ p ++ "I"].
Definition phases (m : mtype) : list string :=
  match m with MSingle | MSingleC | MBal => ["a"] | _ => ["a"; "b"; "c"] end.
Definition spec_states (m : mtype) : list string :=
  (flat_map phase_states (phases m) ++
   match m with MSingleC | MThreeC => ["xP"; "xQ"] | _ => ["Vdc"; "xDC"; "xQ"] end ++
   ["xPLL"; "wte"] ++
   match m with MThree => ["Vrms_filter"] | _ => [] end)%list.

(** the model types with three phases *)
Definition three_phases (m : mtype) : bool :=
  match m with MThree | MThreeNV | MThreeC | MBal | MNumba => true | MSingle | MSingleC => false end.

(** ** The names of the returned trajectories *)
Definition phase_names (p : string) : list string :=
  ["i" ++ p ++ "_t"; "m" ++ p ++ "_t"; "vt" ++ p ++ "_t"; "v" ++ p ++ "_t"].
Definition spec_names (m : mtype) : list string :=
  (flat_map phase_names (if three_phases m then ["a"; "b"; "c"] else ["a"]) ++
   ["Vdc_t"; "Irms_t"; "Vtrms_t"; "Vrms_t"; "Ppv_t"; "S_t"; "S_PCC_t"] ++
   match m with MThree => ["Vrms_filter_t"] | _ => [] end)%list.

(** ** What each returned trajectory means at one time point.
    [t] is the time, [r] the state vector (a row of the solution). *)
Section Sample.
Context {V : Type} (o : ops V) (m : mtype) (d : der V) (g : gridf V) (t : Q) (r : list V).

Inductive phase := PhA | PhB | PhC.
Definition off (p : phase) : nat := match p with PhA => 0 | PhB => 6 | PhC => 12 end.

Definition oo1 (f : V -> V) (x : option V) := match x with Some a => Some (f a) | _ => None end.
Definition oo2 (f : V -> V -> V) (x y : option V) :=
  match x, y with Some a, Some b => Some (f a b) | _, _ => None end.
Definition oo3 (f : V -> V -> V -> V) (x y z : option V) :=
  match x, y, z with Some a, Some b, Some c => Some (f a b c) | _, _, _ => None end.

(** complex number stored at positions i and i+1 *)
Definition cxat (i : nat) : option V := oo2 (o_cx o) (nth_error r i) (nth_error r (Datatypes.S i)).

(** phase quantity with offset [c] inside a phase (0: current, 2: x, 4: u);
    the balanced model stores phase a only and rotates it *)
Definition phq (p : phase) (c : nat) : option V :=
  match m, p with
  | MBal, PhB => oo1 (fun z => o_cx o (o_re o (o_b o z)) (o_im o (o_b o z))) (cxat c)
  | MBal, PhC => oo1 (fun z => o_cx o (o_re o (o_c o z)) (o_im o (o_c o z))) (cxat c)
  | _, _ => cxat (off p + c)
  end.
Definition q_i p := phq p 0.
Definition q_m p := oo2 (o_m o) (phq p 4) (phq p 2).
Definition q_vdc : option V :=
  match m with
  | MSingleC | MThreeC => Some (d_vdc d)
  | MSingle | MBal => nth_error r 6
  | _ => nth_error r 18
  end.
Definition q_vt p := oo2 (o_vt o) (q_m p) q_vdc.
Definition q_v (p : phase) : option V :=
  if d_alone d
  then oo3 (o_va o) (Some (match p with PhA => g_a g t | PhB => g_b g t | PhC => g_c g t end))
           (q_i p) (Some (g_z g t))
  else Some (match p with PhA => d_va d | PhB => d_vb d | PhC => d_vc d end).
Definition power (v : phase -> option V) : option V :=
  if three_phases m then
    oo2 (o_add o) (oo2 (o_add o) (oo2 (o_pw o) (v PhA) (q_i PhA)) (oo2 (o_pw o) (v PhB) (q_i PhB)))
        (oo2 (o_pw o) (v PhC) (q_i PhC))
  else oo2 (o_pw o) (v PhA) (q_i PhA).
Definition rms (v : phase -> option V) : option V :=
  if three_phases m then oo3 (o_rms o) (v PhA) (v PhB) (v PhC)
  else oo3 (o_rms o) (v PhA) (v PhA) (v PhA).

Definition spec_traj : list (string * option V) :=
  ([("ia_t", q_i PhA); ("ma_t", q_m PhA); ("Vdc_t", q_vdc); ("vta_t", q_vt PhA); ("va_t", q_v PhA);
   ("Irms_t", rms q_i); ("Vtrms_t", rms q_vt); ("Vrms_t", rms q_v);
   ("Ppv_t", oo1 (o_ppv o t) q_vdc); ("S_t", power q_vt); ("S_PCC_t", power q_v)] ++
   (if three_phases m then
   [("ib_t", q_i PhB); ("ic_t", q_i PhC); ("mb_t", q_m PhB); ("mc_t", q_m PhC);
    ("vtb_t", q_vt PhB); ("vtc_t", q_vt PhC); ("vb_t", q_v PhB); ("vc_t", q_v PhC)] else []) ++
   match m with MThree => [("Vrms_filter_t", nth_error r 23)] | _ => [] end)%list.

Fixpoint lookup (k : string) (l : list (string * option V)) : option V :=
  match l with
  | [] => None
  | (k', v) :: l' => if String.eqb k k' then v else lookup k l'
  end.
Definition spec_sample (k : string) : option V := lookup k spec_traj.
End Sample.

(** The quantity of the DER object that the first stored point of a loop-mode
    trajectory shows. *)
Definition spec_initial {V} (d : der V) (k : string) : V :=
  d_misc d (String.substring 0 (String.length k - 2) k).

(** ** Loop-mode histories *)

(** One run_simulation call in loop mode: the DER (with its grid voltages) as
    left by the solver, the grid functions, the time list and the solution. *)
Record interval (V : Type) := Interval {
  i_d : der V; i_g : gridf V; i_t : list Q; i_sol : list (list V)
}.
Arguments i_d {V} _. Arguments i_g {V} _. Arguments i_t {V} _. Arguments i_sol {V} _.

(** What odeint guarantees: one row per requested time, every row a full state
    vector; and at least one time was requested. *)
Definition wf_interval {V} (m : mtype) (iv : interval V) : Prop :=
  i_t iv <> [] /\ List.length (i_sol iv) = List.length (i_t iv) /\
  forall r, In r (i_sol iv) -> List.length r = n_ODE m.

(** A history of calls: run one interval, or read the trajectories. *)
Inductive op (V : Type) := ORun (iv : interval V) | OGet.
Arguments ORun {V} _. Arguments OGet {V}.

Fixpoint run_ops {V} (o : ops V) (h : list (op V)) (s : sim V) : res (sim V) :=
  match h with
  | [] => Ok s
  | ORun iv :: rest => bindR (finish_run o (i_d iv) (i_g iv) (i_sol iv) (i_t iv) s) (run_ops o rest)
  | OGet :: rest => let '(s1, r) := get_trajectories s in bindR r (fun _ => run_ops o rest s1)
  end.
Fixpoint runs {V} (h : list (op V)) : list (interval V) :=
  match h with [] => [] | ORun iv :: r => iv :: runs r | OGet :: r => runs r end.

(** All new time points: the first point of every interval repeats the last
    point of the previous one. *)
Definition new_times {V} (ivs : list (interval V)) : list Q :=
  flat_map (fun iv => List.tl (i_t iv)) ivs.
Definition new_samples {V} (o : ops V) (m : mtype) (k : string) (ivs : list (interval V))
  : list (option V) :=
  flat_map (fun iv => List.tl (List.map (fun p => spec_sample o m (i_d iv) (i_g iv) (fst p) (snd p) k)
                                        (combine (i_t iv) (i_sol iv)))) ivs.

(** Consecutive intervals join: the first starts at [t0], every interval is
    strictly increasing and starts where the previous one ended. *)
Fixpoint joined {V} (t0 : Q) (ivs : list (interval V)) : Prop :=
  match ivs with
  | [] => True
  | iv :: rest => exists tl, i_t iv = t0 :: tl /\ StronglySorted Qlt (t0 :: tl) /\
                  joined (last (t0 :: tl) t0) rest
  end.

(** Last row of the last interval. *)
Definition last_row {V} (ivs : list (interval V)) : list V :=
  match rev ivs with
  | [] => []
  | iv :: _ => last (i_sol iv) []
  end.
