(** Lemmas about the parameter dictionaries. *)
From Coq Require Import Ascii.
From Verif Require Import Base ConfigValues ConfigData ConfigLemmas ParamModel.
Open Scope string_scope.

Lemma dget_dupdate {A} (e : list (string * A)) : NoDup (map fst e) -> forall d k,
  dget k (dupdate d e) = match dget k e with Some v => Some v | None => dget k d end.
Proof.
  unfold dupdate. induction e as [|[k0 v0] e IH]; cbn; intros N d k; auto.
  inversion N; subst. rewrite IH by auto. rewrite dget_dset.
  destruct (String.eqb k k0) eqn:E.
  - apply String.eqb_eq in E. subst. apply dget_nokey in H1. now rewrite H1.
  - reflexivity.
Qed.
Lemma dset_nodup {A} k (v : A) d : NoDup (map fst d) -> NoDup (map fst (dset k v d)).
Proof.
  intros N. rewrite dset_keys. destruct (dmem k d) eqn:E; auto.
  apply dmem_false in E. apply dget_nokey in E.
  induction d as [|[k' v'] d IH]; cbn in *; [constructor; auto; constructor|].
  inversion N; subst. constructor; [|apply IH; tauto].
  rewrite in_app_iff. cbn. intuition.
Qed.
Lemma dupdate_nodup {A} (e : list (string * A)) : forall d, NoDup (map fst d) -> NoDup (map fst (dupdate d e)).
Proof. unfold dupdate. induction e as [|a e IH]; cbn; intros; auto. apply IH. now apply dset_nodup. Qed.

Lemma pfield_pset p q s f : pfield q (pset p s f) = if String.eqb (pname q) (pname p) then f else pfield q s.
Proof. destruct p, q; reflexivity. Qed.
Lemma pname_eqb p q : String.eqb (pname p) (pname q) = true <-> p = q.
Proof. destruct p, q; cbn; split; intros H; auto; discriminate. Qed.
Lemma pparse_pname p : pparse (pname p) = Some p.
Proof. destruct p; reflexivity. Qed.
Lemma pparse_some n p : pparse n = Some p -> n = pname p.
Proof. unfold pparse. intros H. apply find_some in H as [_ H]. now apply String.eqb_eq in H. Qed.

(** All templates have the five parameter types. *)
Lemma template_types model t p : dget model DER_design_template = Some t -> dmem (pname p) t = true.
Proof.
  intros H. apply dget_In in H.
  assert (A : forallb (fun mt => forallb (fun p => dmem (pname p) (snd mt)) ptypes) DER_design_template = true)
    by (vm_compute; reflexivity).
  rewrite forallb_forall in A. specialize (A _ H). rewrite forallb_forall in A. apply A. destruct p; cbn; tauto.
Qed.

(** update_parameter_dict of one of the five types. *)
Lemma update_eq model t s pid p d : dget model DER_design_template = Some t ->
  update_parameter_dict model s pid (pname p) d =
  match d with [] => (s, Ok tt) | _ =>
    match dget pid (pfield p s) with
    | None => (s, Raise KeyError)
    | Some cur => (pset p s (dset pid (dupdate cur d) (pfield p s)), Ok tt) end end.
Proof.
  intros H. unfold update_parameter_dict. rewrite H, (template_types _ _ p H), pparse_pname. reflexivity.
Qed.

(** Running one step per parameter type: each step may change its own field only
    and depends on it only. *)
Section PerType.
  Variable f : ptype -> params -> params * res unit.
  Variable g : ptype -> list (string * dict) -> option (list (string * dict)).
  Hypothesis Hf : forall p s, f p s = match g p (pfield p s) with Some x => (pset p s x, Ok tt) | None => (s, Raise KeyError) end.
  Lemma seq_ok s : (forall p, exists x, g p (pfield p s) = Some x) ->
    exists s', seq (map f ptypes) s = (s', Ok tt) /\ forall p, g p (pfield p s) = Some (pfield p s').
  Proof.
    intros H. destruct (H PModule) as [x1 H1], (H PInverter) as [x2 H2], (H PCircuit) as [x3 H3], (H PGains) as [x4 H4], (H PSteady) as [x5 H5].
    exists (Params x1 x2 x3 x4 x5). split.
    - destruct s. cbn in *. rewrite !Hf. cbn. rewrite H1. cbn. rewrite Hf. cbn. rewrite H2. cbn. rewrite Hf. cbn. rewrite H3.
      cbn. rewrite Hf. cbn. rewrite H4. cbn. rewrite Hf. cbn. rewrite H5. reflexivity.
    - intros []; assumption.
  Qed.
  Lemma seq_first_fails s : g PModule (pfield PModule s) = None -> seq (map f ptypes) s = (s, Raise KeyError).
  Proof. intros H. cbn. rewrite Hf. cbn in H. cbn. rewrite H. reflexivity. Qed.
End PerType.

(** The effect of create_parameter_dict on one field. *)
Lemma create_one_eq deflt pid p s : create_one deflt pid p s =
  match match dget deflt (pfield p s) with
        | Some d => Some (dset pid (map (fun kv => (fst kv, VNone)) d) (pfield p s)) | None => None end with
  | Some x => (pset p s x, Ok tt) | None => (s, Raise KeyError) end.
Proof. unfold create_one. destruct (dget deflt (pfield p s)); reflexivity. Qed.

Lemma pset_same p s : pset p s (pfield p s) = s.
Proof. destruct p, s; reflexivity. Qed.

Lemma map_keys_none (d : dict) : map fst (map (fun kv => (fst kv, VNone)) d) = map fst d.
Proof. induction d as [|[k v] d IH]; cbn; congruence. Qed.

(** The text before the first dot. *)
Fixpoint no_dot (s : string) : Prop :=
  match s with EmptyString => True | String c r => c <> "."%char /\ no_dot r end.
Lemma before_dot_pkl s : no_dot s -> before_dot (s ++ ".pkl") = s.
Proof.
  induction s as [|c s IH]; cbn; [reflexivity|]. intros [H1 H2].
  destruct (Ascii.eqb c ".") eqn:E; [apply Ascii.eqb_eq in E; contradiction|]. now rewrite IH.
Qed.
