(** C120: the log file can be read back. *)
From Verif Require Import Base LogModel.
From Coq Require Import Ascii String.
Open Scope string_scope.
Open Scope list_scope.

(** * Specification *)
Definition colons : text := of_string "::".
(** a log record: the eight columns of the default format *)
Record record := Record { r_time : text; r_name : text; r_file : text; r_func : text;
                          r_level : text; r_msg : text; r_thread : text; r_proc : text }.
Definition columns (r : record) : list text :=
  [r_time r; r_name r; r_file r; r_func r; r_level r; r_msg r; r_thread r; r_proc r].
(** a column that does not disturb the format: no "::" in it, no ":" at its end,
    no line end (LF, VT, FF, CR, FS, GS, RS or NEL) *)
Definition line_ends : list nat := [10; 11; 12; 13; 28; 29; 30; 133]%nat.
Definition plain (f : text) : Prop :=
  (forall a b, f <> a ++ colons ++ b) /\ (forall a, f <> a ++ of_string ":") /\ Forall (fun c => ~ In (nat_of_ascii c) line_ends) f.
Definition ERROR : text := of_string "ERROR".

Section Spec.
  Context {T J : Type} (ptime : text -> res T) (pjson : text -> res J) (jget : J -> String.string -> res text)
          (veqb : lval T J -> lval T J -> bool) (basename : text -> text).
  (** the entry a record should be read as: all columns as written (without
      surrounding white space), the time as a time; for an error the message is the
      decoded object and file and function are the ones it names *)
  Definition reads (r : record) (l : @log T J) : Prop :=
    exists t, ptime (strip (r_time r)) = Ok t /\
    ((strip (r_level r) <> ERROR /\
      l = [(Asctime, LTime t); (Name, LText (strip (r_name r))); (Filename, LText (strip (r_file r)));
           (FuncName, LText (strip (r_func r))); (Levelname, LText (strip (r_level r))); (Message, LText (strip (r_msg r)));
           (ThreadName, LText (strip (r_thread r))); (Process, LText (strip (r_proc r)))]) \/
     (strip (r_level r) = ERROR /\ exists j f g, pjson (strip (r_msg r)) = Ok j /\ jget j "filename" = Ok f /\ jget j "funcName" = Ok g /\
      l = [(Asctime, LTime t); (Name, LText (strip (r_name r))); (Filename, LText (basename f));
           (FuncName, LText (basename g)); (Levelname, LText ERROR); (Message, LError j);
           (ThreadName, LText (strip (r_thread r))); (Process, LText (strip (r_proc r)))])).
  (** an entry meets the filter if it has every filtered column with the wanted value *)
  Definition meets (flt : @log T J) (l : @log T J) : Prop :=
    forall c v, In (c, v) flt -> exists w, lget c l = Some w /\ veqb w v = true.
End Spec.

(** * Proofs *)
Lemma line_end_iff c : line_end c = true <-> In (nat_of_ascii c) line_ends.
Proof.
  unfold line_end. rewrite existsb_exists. split.
  - intros (x & H & E). apply Nat.eqb_eq in E. rewrite E. exact H.
  - intros H. exists (nat_of_ascii c). split; [exact H|apply Nat.eqb_refl].
Qed.
Lemma ends_ok f : Forall (fun c => ~ In (nat_of_ascii c) line_ends) f -> Forall (fun c => line_end c = false) f.
Proof. apply Forall_impl. intros c H. apply not_true_iff_false. rewrite line_end_iff. exact H. Qed.
Lemma prefixb_iff p s : prefixb p s = true <-> exists r, s = p ++ r.
Proof.
  revert s. induction p as [|a p IH]; intros [|b s]; cbn.
  - split; [intros _; now exists []|auto].
  - split; [intros _; now exists (b :: s)|auto].
  - split; [discriminate|intros [r H]; discriminate].
  - rewrite andb_true_iff, Ascii.eqb_eq, IH. split.
    + intros [-> [r ->]]. now exists r.
    + intros [r H]. injection H as -> ->. eauto.
Qed.
Lemma skip_all sep : forall m cur s, split_from sep (List.length m) cur (m ++ s) = split_from sep 0 cur s.
Proof. induction m as [|c m IH]; intros; [reflexivity|]. cbn [List.length app split_from]. apply IH. Qed.
Lemma split_first f cur rest : plain f -> split_from colons 0 cur (f ++ colons ++ rest) = (rev cur ++ f) :: split_from colons 0 [] rest.
Proof.
  intros (P1 & P2 & _). revert cur P1 P2. induction f as [|c f IH]; intros cur P1 P2.
  - cbn. now rewrite app_nil_r.
  - cbn [app split_from].
    assert (N : prefixb colons (c :: f ++ colons ++ rest) = false).
    { apply not_true_iff_false. intros H. apply prefixb_iff in H. destruct H as [r H]. cbn in H. destruct f as [|d f].
      - injection H as -> _. apply (P2 []). reflexivity.
      - injection H as -> -> _. apply (P1 [] f). reflexivity. }
    rewrite N, IH.
    + cbn. now rewrite <- app_assoc.
    + intros a b E. apply (P1 (c :: a) b). now rewrite E.
    + intros a E. apply (P2 (c :: a)). now rewrite E.
Qed.
Lemma split_last f cur : plain f -> split_from colons 0 cur f = [rev cur ++ f].
Proof.
  intros (P1 & P2 & _). revert cur P1 P2. induction f as [|c f IH]; intros cur P1 P2.
  - cbn. now rewrite app_nil_r.
  - cbn [split_from].
    assert (N : prefixb colons (c :: f) = false).
    { apply not_true_iff_false. intros H. apply prefixb_iff in H. destruct H as [r H]. apply (P1 [] r). exact H. }
    rewrite N, IH.
    + cbn. now rewrite <- app_assoc.
    + intros a b E. apply (P1 (c :: a) b). now rewrite E.
    + intros a E. apply (P2 (c :: a)). now rewrite E.
Qed.
Lemma split_columns r : Forall plain (columns r) -> split colons (joined colons (columns r)) = columns r.
Proof.
  unfold columns. intros H. repeat match goal with X : Forall _ (_ :: _) |- _ => inversion X; subst; clear X end.
  unfold split. cbn [joined]. do 7 (rewrite split_first by assumption; cbn [rev app]; f_equal). now rewrite split_last.
Qed.

Lemma lines_app cur a b : lines_from cur (a ++ newline :: b) = lines_from cur (a ++ [newline]) ++ lines_from [] b.
Proof.
  revert cur. induction a as [|c a IH]; intros cur; cbn [app lines_from].
  - reflexivity.
  - destruct (line_end c); rewrite IH; reflexivity.
Qed.
Lemma lines_one cur a : Forall (fun c => line_end c = false) a -> lines_from cur (a ++ [newline]) = [rev cur ++ a].
Proof.
  revert cur. induction a as [|c a IH]; intros cur H; cbn [app lines_from].
  - cbn. now rewrite app_nil_r.
  - inversion H; subst. rewrite H2, IH by assumption. cbn. now rewrite <- app_assoc.
Qed.
Lemma written_cons r rs b : splitlines (written (r :: rs) ++ b) = lines_from [] (joined colons r ++ [newline]) ++ splitlines (written rs ++ b).
Proof.
  unfold splitlines, written. cbn [flat_map]. change (of_string "::") with colons. rewrite <- !app_assoc. cbn [app]. apply lines_app.
Qed.
Lemma written_app : forall pre post, splitlines (written (pre ++ post)) = splitlines (written pre) ++ splitlines (written post).
Proof.
  induction pre as [|r pre IH]; intros post; [reflexivity|]. cbn [app].
  pose proof (written_cons r (pre ++ post) []) as A. pose proof (written_cons r pre []) as B. rewrite !app_nil_r in A, B.
  rewrite A, B, IH. now rewrite app_assoc.
Qed.
Lemma no_ends r : Forall plain (columns r) -> Forall (fun c => line_end c = false) (joined colons (columns r)).
Proof.
  unfold columns. intros H. repeat match goal with X : Forall _ (_ :: _) |- _ => inversion X; subst; clear X end.
  repeat match goal with X : plain _ |- _ => destruct X as (_ & _ & X); apply ends_ok in X end.
  cbn [joined]. repeat (apply Forall_app; split; [assumption|]; apply Forall_app; split; [repeat constructor|]). assumption.
Qed.

Section Proofs.
  Context {T J : Type} (ptime : text -> res T) (pjson : text -> res J) (jget : J -> String.string -> res text)
          (veqb : lval T J -> lval T J -> bool) (basename : text -> text).
  Notation get_logs := (get_logs ptime pjson jget veqb basename).
  Notation read_lines := (read_lines ptime pjson jget veqb basename).
  Lemma selected_P flt l : selected veqb flt l = true <-> meets veqb flt l.
  Proof.
    unfold selected, meets. rewrite forallb_forall. split.
    - intros H c v Hi. specialize (H _ Hi). cbn [fst snd] in H. destruct (lget c l) as [w|]; [eauto|discriminate].
    - intros H [c v] Hi. destruct (H _ _ Hi) as (w & E & Ev). cbn [fst snd]. now rewrite E.
  Qed.
  (** Records in the plain format whose times (and error messages) can be parsed
      are all read back, in order, with every column as written, and the filter
      selects exactly the entries that have the wanted values. *)
  Theorem C120_read_back_partial : forall flt rs ls p,
    Forall (fun r => Forall plain (columns r)) rs -> Forall2 (reads ptime pjson jget basename) rs ls ->
    (forall l, p l = true <-> meets veqb flt l) ->
    get_logs flt (written (map columns rs)) = Ok (filter p ls).
  Proof.
    intros flt rs ls p Hp Hr Hm. unfold LogModel.get_logs. change (of_string "::") with colons.
    induction Hr as [|r l rs ls R Rs IH]; [reflexivity|]. inversion Hp; subst. specialize (IH H2).
    cbn [map]. pose proof (written_cons (columns r) (map columns rs) []) as W. rewrite !app_nil_r in W. rewrite W. clear W.
    rewrite lines_one by now apply no_ends. cbn [rev app LogModel.read_lines]. unfold items.
    rewrite split_columns by assumption. unfold columns at 1, default_header. cbn [combine map].
    unfold convert_time. cbn [lget column_eqb].
    assert (Sel : forall l', selected veqb flt l' = p l').
    { intros l'. apply eq_true_iff_eq. now rewrite Hm, selected_P. }
    destruct R as (t & Et & [[Ne ->]|(Ee & j & f & g & Ej & Ef & Eg & ->)]); rewrite Et; cbn [bindR lset column_eqb]; unfold convert_error, is_error; cbn [lget column_eqb].
    - change (of_string "ERROR") with ERROR. destruct (list_eq_dec ascii_dec (strip (r_level r)) ERROR); [contradiction|].
      cbn [bindR]. rewrite IH. cbn [bindR filter]. now rewrite Sel.
    - change (of_string "ERROR") with ERROR. destruct (list_eq_dec ascii_dec (strip (r_level r)) ERROR) as [E|E]; [|contradiction].
      cbn [lget column_eqb bindR]. rewrite Ej. cbn [bindR lset column_eqb lget]. rewrite Ef. cbn [bindR lset column_eqb lget]. rewrite Eg.
      cbn [bindR lset column_eqb]. rewrite IH. cbn [bindR filter]. rewrite Ee. now rewrite Sel.
  Qed.

  Lemma read_lines_raise flt pre s post l e : items colons s = l -> bindR (convert_time ptime l) (fun l => convert_error pjson jget basename l) = Raise e ->
    forall out, read_lines colons flt (pre ++ s :: post) <> Ok out.
  Proof.
    intros <- E. induction pre as [|a pre IH]; intros out; cbn [app LogModel.read_lines].
    - destruct (convert_time ptime (items colons s)) as [l|]; cbn [bindR] in *; [|discriminate]. rewrite E. discriminate.
    - destruct (convert_time ptime (items colons a)) as [l|]; cbn [bindR]; [|discriminate].
      destruct (convert_error pjson jget basename l); cbn [bindR]; [|discriminate].
      destruct (read_lines colons flt (pre ++ s :: post)) as [o|] eqn:X; cbn [bindR]; [|discriminate]. exfalso. now apply (IH o).
  Qed.

  (** One error record whose message is not a json object makes the whole log
      unreadable, whatever was logged before and after and whatever the filter. *)
  Theorem C120_error_text_refuted : forall flt pre r post t e,
    Forall plain (columns r) -> ptime (strip (r_time r)) = Ok t -> strip (r_level r) = ERROR -> pjson (strip (r_msg r)) = Raise e ->
    forall out, get_logs flt (written (pre ++ columns r :: post)) <> Ok out.
  Proof.
    intros flt pre r post t e Hp Ht Hl Hj out. unfold LogModel.get_logs. change (of_string "::") with colons.
    rewrite written_app. pose proof (written_cons (columns r) post []) as W. rewrite !app_nil_r in W. rewrite W. clear W.
    rewrite lines_one by now apply no_ends. cbn [rev app].
    eapply read_lines_raise; [unfold items; rewrite split_columns by assumption; unfold columns, default_header; cbn [combine map]; reflexivity|].
    unfold convert_time. cbn [lget column_eqb]. rewrite Ht. cbn [bindR lset column_eqb]. unfold convert_error, is_error. cbn [lget column_eqb].
    change (of_string "ERROR") with ERROR. destruct (list_eq_dec ascii_dec (strip (r_level r)) ERROR); [|contradiction].
    rewrite Hj. reflexivity.
  Qed.

  (** A message containing "::" is cut there, and the rest of it is reported as the
      thread name. *)
  Theorem C120_separator_refuted : forall r p q t,
    r_msg r = p ++ colons ++ q -> Forall plain [r_time r; r_name r; r_file r; r_func r; r_level r; p; q; r_thread r; r_proc r] ->
    ptime (strip (r_time r)) = Ok t -> strip (r_level r) <> ERROR ->
    exists l, get_logs [] (written [columns r]) = Ok [l] /\
      lget Message l = Some (LText (strip p)) /\ lget ThreadName l = Some (LText (strip q)) /\ lget Process l = Some (LText (strip (r_thread r))).
  Proof.
    intros r p q t E Hp Ht Hl. unfold LogModel.get_logs. change (of_string "::") with colons.
    repeat match goal with X : Forall _ (_ :: _) |- _ => inversion X; subst; clear X end.
    pose proof (written_cons (columns r) [] []) as W. rewrite !app_nil_r in W. rewrite W. clear W.
    rewrite lines_one.
    2:{ unfold columns. rewrite E. repeat match goal with X : plain _ |- _ => destruct X as (_ & _ & X); apply ends_ok in X end.
        cbn [joined]. rewrite <- !app_assoc. repeat (apply Forall_app; split; [assumption|]; apply Forall_app; split; [repeat constructor|]). assumption. }
    cbn [rev app LogModel.read_lines splitlines lines_from written flat_map]. unfold items.
    assert (Sp : split colons (joined colons (columns r)) = [r_time r; r_name r; r_file r; r_func r; r_level r; p; q; r_thread r; r_proc r]).
    { unfold columns. rewrite E. unfold split. cbn [joined]. rewrite <- !app_assoc. do 8 (rewrite split_first by assumption; cbn [rev app]; f_equal). now rewrite split_last. }
    rewrite Sp. unfold default_header. cbn [combine map]. unfold convert_time. cbn [lget column_eqb]. rewrite Ht. cbn [bindR lset column_eqb].
    unfold convert_error, is_error. cbn [lget column_eqb]. change (of_string "ERROR") with ERROR.
    destruct (list_eq_dec ascii_dec (strip (r_level r)) ERROR); [contradiction|]. cbn [bindR selected forallb splitlines lines_from].
    eexists. split; [reflexivity|]. cbn [lget column_eqb]. auto.
  Qed.

  (** A message of several lines makes the whole log unreadable (unless its
      continuation happens to start with a date). *)
  Theorem C120_lines_refuted : forall flt pre r post p q e,
    r_msg r = p ++ newline :: q -> plain q -> Forall plain [r_thread r; r_proc r] -> ptime (strip q) = Raise e ->
    forall out, get_logs flt (written (pre ++ columns r :: post)) <> Ok out.
  Proof.
    intros flt pre r post p q e E Hq Hp Ht out. unfold LogModel.get_logs. change (of_string "::") with colons.
    rewrite written_app. pose proof (written_cons (columns r) post []) as W. rewrite !app_nil_r in W. rewrite W. clear W.
    repeat match goal with X : Forall _ (_ :: _) |- _ => inversion X; subst; clear X end.
    set (fst_cols := fun m => r_time r ++ colons ++ r_name r ++ colons ++ r_file r ++ colons ++ r_func r ++ colons ++ r_level r ++ colons ++ m).
    set (second := q ++ colons ++ r_thread r ++ colons ++ r_proc r).
    assert (L : lines_from [] (joined colons (columns r) ++ [newline]) = lines_from [] (fst_cols p ++ [newline]) ++ [second]).
    { replace (joined colons (columns r) ++ [newline]) with (fst_cols p ++ newline :: second ++ [newline]).
      - rewrite lines_app. f_equal. rewrite lines_one; [reflexivity|]. unfold second. repeat match goal with X : plain _ |- _ => destruct X as (_ & _ & X); apply ends_ok in X end.
        repeat (apply Forall_app; split; [assumption|]; apply Forall_app; split; [repeat constructor|]). assumption.
      - unfold columns, fst_cols, second. cbn [joined]. rewrite E. rewrite <- ?app_assoc. cbn [app]. rewrite <- ?app_assoc. reflexivity. }
    rewrite L.
    match goal with |- LogModel.read_lines _ _ _ _ _ _ _ (?X ++ (?A ++ [second]) ++ ?B) <> _ => replace (X ++ (A ++ [second]) ++ B) with ((X ++ A) ++ second :: B) by (rewrite <- !app_assoc; reflexivity) end.
    eapply read_lines_raise.
    - unfold items, split, second. do 2 (rewrite split_first by assumption; cbn [rev app]). rewrite split_last by assumption. cbn [rev app].
      unfold default_header. cbn [combine map]. reflexivity.
    - unfold convert_time. cbn [lget column_eqb]. rewrite Ht. reflexivity.
  Qed.
End Proofs.
Print Assumptions C120_read_back_partial.
Print Assumptions C120_error_text_refuted.
Print Assumptions C120_separator_refuted.
Print Assumptions C120_lines_refuted.

(** The wrapper logs the failed lookup of a configuration identifier as such an
    error record (DER_components.py:118): after one unknown identifier the log can
    no longer be read.  No json text starts with a D. *)
Definition not_found (id file ids : text) : text :=
  of_string "DER configuration with ID:" ++ id ++ of_string " could not be found in " ++ file ++ of_string "! - Available IDs are:" ++ ids.
Theorem C120_unknown_id_refuted : forall (T J : Type) (ptime : text -> res T) (pjson : text -> res J) jget veqb basename,
  (forall s, pjson (of_string "D" ++ s) = Raise ValueError) ->
  forall flt pre r post t id file ids,
  Forall plain (columns r) -> ptime (strip (r_time r)) = Ok t -> strip (r_level r) = ERROR ->
  r_msg r = not_found id file ids ->
  forall out, get_logs ptime pjson jget veqb basename flt (written (pre ++ columns r :: post)) <> Ok out.
Proof.
  intros T J ptime pjson jget veqb basename HJ flt pre r post t id file ids Hp Ht Hl Hm.
  apply (C120_error_text_refuted ptime pjson jget veqb basename flt pre r post t ValueError Hp Ht Hl).
  assert (D : exists s, strip (r_msg r) = of_string "D" ++ s).
  { rewrite Hm. unfold strip. set (m := not_found id file ids).
    assert (E : lstrip m = m) by reflexivity. rewrite E.
    assert (M : exists w, m = of_string "D" ++ w) by (eexists; unfold m, not_found; cbn; reflexivity). destruct M as [w Hw]. rewrite Hw.
    cbn [of_string app rev]. clear. generalize (rev w) as l. induction l as [|c l IH].
    - exists []. reflexivity.
    - cbn [app lstrip]. destruct (space c); [exact IH|]. cbn [rev]. rewrite rev_app_distr. cbn. exists (rev l ++ [c]). reflexivity. }
  destruct D as [s ->]. apply HJ.
Qed.
Print Assumptions C120_unknown_id_refuted.

Definition ex_time (s : text) : res nat := match s with c :: _ => if existsb (Nat.eqb (nat_of_ascii c)) [48; 49; 50; 51]%nat then Ok (List.length s) else Raise ValueError | [] => Raise ValueError end.
Definition ex_json (s : text) : res text := match s with c :: r => if Nat.eqb (nat_of_ascii c) 123 then Ok r else Raise ValueError | [] => Raise ValueError end.
Definition ex_get (j : text) (k : String.string) : res text := Ok j.
Definition ex_rec (lvl msg : String.string) : record :=
  Record (of_string "2021-01-01 10:00:00,123") (of_string "pvder") (of_string "f.py") (of_string "fn") (of_string lvl) (of_string msg) (of_string "MainThread") (of_string "12").
Definition plainb (f : text) : bool :=
  Nat.eqb (List.length (split colons f)) 1 && negb (prefixb (of_string ":") (rev f)) && negb (existsb line_end f).
Example C120_hypotheses_met :
  forallb plainb (flat_map columns [ex_rec "INFO" "done: 3 steps"; ex_rec "ERROR" "{...}"]) = true /\
  (exists l1 l2, get_logs ex_time ex_json ex_get (fun _ _ => true) (fun x => x) [] (written (map columns [ex_rec "INFO" "done: 3 steps"; ex_rec "ERROR" "{...}"])) = Ok [l1; l2] /\
     lget Message l1 = Some (LText (of_string "done: 3 steps"))) /\
  (exists l, get_logs ex_time ex_json ex_get (fun _ _ => true) (fun x => x) [] (written [columns (ex_rec "INFO" "a::b")]) = Ok [l] /\ lget Message l = Some (LText (of_string "a"))) /\
  get_logs ex_time ex_json ex_get (fun _ _ => true) (fun x => x) [] (written (map columns [ex_rec "INFO" "ok"; ex_rec "ERROR" "DER configuration with ID:7 could not be found in c.json! - Available IDs are:50"])) = Raise ValueError.
Proof.
  split; [vm_compute; reflexivity|]. split; [do 2 eexists; split; vm_compute; reflexivity|].
  split; [eexists; split; vm_compute; reflexivity|]. vm_compute. reflexivity.
Qed.

(** What [strip] in the specification above means: the text without the white space
    at its two ends. *)
Definition white : list nat := [9; 10; 11; 12; 13; 28; 29; 30; 31; 32; 133; 160]%nat.
Definition is_white (c : ascii) : Prop := In (nat_of_ascii c) white.
Lemma space_iff c : space c = true <-> is_white c.
Proof.
  unfold space, is_white. rewrite existsb_exists. split.
  - intros (x & H & E). apply Nat.eqb_eq in E. rewrite E. exact H.
  - intros H. exists (nat_of_ascii c). split; [exact H|apply Nat.eqb_refl].
Qed.
Lemma lstrip_split s : exists l, s = l ++ lstrip s /\ Forall is_white l /\ (forall c r, lstrip s = c :: r -> ~ is_white c).
Proof.
  induction s as [|c s (l & E & F & G)]; [exists []; repeat split; [constructor|cbn; discriminate]|].
  cbn [lstrip]. destruct (space c) eqn:Sc.
  - exists (c :: l). split; [cbn; rewrite <- E; reflexivity|]. split; [constructor; [apply space_iff; exact Sc|exact F]|exact G].
  - exists []. split; [reflexivity|]. split; [constructor|]. intros c' r H W. injection H as <- <-. apply space_iff in W. congruence.
Qed.
Theorem C120_stripped_text : forall s, exists l r,
  s = l ++ strip s ++ r /\ Forall is_white l /\ Forall is_white r /\
  (forall c m, strip s = c :: m -> ~ is_white c) /\ (forall c m, strip s = m ++ [c] -> ~ is_white c).
Proof.
  intros s. destruct (lstrip_split s) as (l & E & F & G). destruct (lstrip_split (rev (lstrip s))) as (r & E2 & F2 & G2).
  exists l, (rev r). unfold strip.
  assert (E3 : lstrip s = rev (lstrip (rev (lstrip s))) ++ rev r).
  { rewrite <- rev_app_distr, <- E2, rev_involutive. reflexivity. }
  split; [rewrite <- E3; exact E|]. split; [exact F|]. split; [apply Forall_rev; exact F2|]. split.
  - intros c m H. rewrite H in E3. apply (G c (m ++ rev r)). exact E3.
  - intros c m H. apply (f_equal (@rev ascii)) in H. rewrite rev_involutive, rev_app_distr in H. apply (G2 c (rev m)). exact H.
Qed.
Print Assumptions C120_stripped_text.
