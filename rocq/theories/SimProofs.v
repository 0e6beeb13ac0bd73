(** Proof support for SimProperties.v. *)
From Coq Require Import String.
From Verif Require Import Base EventsModel SimModel SimLemmas SimSpec.
Open Scope string_scope.

(** ** Generic list facts *)
Lemma nth_error_ext {A} (l l' : list A) :
  List.length l = List.length l' ->
  (forall j, (j < List.length l)%nat -> nth_error l j = nth_error l' j) -> l = l'.
Proof.
  revert l'. induction l as [|a l IH]; intros [|b l']; simpl; intros HL H; try discriminate; auto.
  pose proof (H 0%nat ltac:(lia)) as H0. simpl in H0. injection H0 as ->. f_equal.
  apply IH; [lia|]. intros j Hj. apply (H (Datatypes.S j)). lia.
Qed.
Lemma nth_error_combine {A B} (l : list A) (l' : list B) j :
  nth_error (combine l l') j =
  match nth_error l j, nth_error l' j with Some x, Some y => Some (x, y) | _, _ => None end.
Proof.
  revert l' j. induction l as [|a l IH]; intros [|b l'] [|j]; simpl; auto.
  all: try (destruct (nth_error l j); reflexivity).
Qed.
Lemma a_last_nth {V} (l : list V) v : l <> [] -> nth_error l (List.length l - 1) = Some v ->
  a_last (A1 l) = Ok v.
Proof.
  intros Hne H. destruct (exists_last Hne) as (l' & x & ->). unfold a_last.
  rewrite rev_app_distr. simpl. rewrite app_length in H. simpl in H.
  replace (List.length l' + 1 - 1)%nat with (List.length l') in H by lia.
  rewrite nth_error_app2 in H by lia. rewrite Nat.sub_diag in H. simpl in H. congruence.
Qed.
Lemma nth_error_last {A} (l : list A) d : l <> [] -> nth_error l (List.length l - 1) = Some (last l d).
Proof.
  intros Hne. destruct (exists_last Hne) as (l' & x & ->). rewrite last_last, app_length. simpl.
  replace (List.length l' + 1 - 1)%nat with (List.length l') by lia.
  rewrite nth_error_app2 by lia. rewrite Nat.sub_diag. reflexivity.
Qed.

Lemma existsb_In k l : existsb (String.eqb k) l = true <-> In k l.
Proof. apply inb_In. Qed.
Lemma not_inb k l : inb k l = false -> ~ In k l.
Proof. intros H C. apply inb_In in C. congruence. Qed.

(** ** The collect_states statements *)
Lemma cs_no_t {V} (o : ops V) m vdc : existsb needs_t (cs_steps o m vdc) = false.
Proof. destruct m; reflexivity. Qed.
Lemma iy_no_t {V} (o : ops V) m vdc : existsb needs_t (iy_steps o m vdc) = false.
Proof. destruct m; reflexivity. Qed.

Definition env0 {V} : nat -> @env V := fun _ _ => None.

(** collect_states always succeeds on a well-formed solution and is, at every
    index, the sample meaning of its statements. *)
Lemma cs_sound {V} (o : ops V) m vdc ts sol (a : attrs V) :
  (forall r, In r sol -> List.length r = n_ODE m) ->
  exists a' kn, check_all (n_ODE m) [] (cs_steps o m vdc) = Some kn /\
    collect_states o m vdc ts sol a = Ok a' /\
    (forall x, In x kn -> holds (List.length sol) a'
       (fun j => sexec_all o (nth_error ts j) (nth_error sol j) (cs_steps o m vdc) (env0 j)) x) /\
    (forall x, ~ In x (flat_map writes (cs_steps o m vdc)) -> a' x = a x).
Proof.
  intros Hr.
  assert (exists kn, check_all (n_ODE m) [] (cs_steps o m vdc) = Some kn) as [kn Hk]
    by (destruct m; eexists; reflexivity).
  destruct (exec_all_sound o ts sol (List.length sol) (n_ODE m) eq_refl Hr
              (cs_steps o m vdc) a env0 [] kn) as (a' & X & H & F); auto.
  { right. apply cs_no_t. } { intros x []. }
  exists a', kn. auto.
Qed.

Lemma iy_sound {V} (o : ops V) m vdc y (a : attrs V) :
  List.length y = n_ODE m ->
  exists a' kn, check_all (n_ODE m) [] (iy_steps o m vdc) = Some kn /\
    exec_all o [] [y] (iy_steps o m vdc) a = Ok a' /\
    (forall x, In x kn -> holds 1 a'
       (fun j => sexec_all o (nth_error [] j) (nth_error [y] j) (iy_steps o m vdc) (env0 j)) x) /\
    (forall x, ~ In x (flat_map writes (iy_steps o m vdc)) -> a' x = a x).
Proof.
  intros Hy.
  assert (exists kn, check_all (n_ODE m) [] (iy_steps o m vdc) = Some kn) as [kn Hk]
    by (destruct m; eexists; reflexivity).
  destruct (exec_all_sound o [] [y] 1 (n_ODE m) eq_refl) with (l := iy_steps o m vdc) (a := a)
    (E := @env0 V) (known := @nil string) (known' := kn) as (a' & X & H & F); auto.
  { intros r [<-|[]]. auto. } { right. apply iy_no_t. } { intros x []. }
  exists a', kn. auto.
Qed.

(** ** collect_full *)
Definition all_steps {V} (o : ops V) m d g : list (step V) :=
  (cs_steps o m (d_vdc d) ++ ft_steps o m d g)%list.

Lemma exec_all_app {V} (o : ops V) ts sol l1 l2 a :
  exec_all o ts sol (l1 ++ l2)%list a = bindR (exec_all o ts sol l1 a) (exec_all o ts sol l2).
Proof.
  revert a. induction l1 as [|s l1 IH]; intros a; simpl; auto.
  destruct (exec o ts sol s a); simpl; auto.
Qed.
Lemma collect_full_all {V} (o : ops V) m d g ts sol a :
  collect_full o m d g ts sol a = exec_all o ts sol (all_steps o m d g) a.
Proof. unfold collect_full, collect_states, all_steps. now rewrite exec_all_app. Qed.

Lemma all_check {V} (o : ops V) m d g :
  exists kn, check_all (n_ODE m) [] (all_steps o m d g) = Some kn /\
             forall k, In k (append_list m) -> In k kn.
Proof.
  unfold all_steps, ft_steps, ft_v, cs_steps. destruct m, (d_alone d); cbn [is_three three_phases];
  (eexists; split; [reflexivity|]);
  intros k Hk; apply inb_In; apply inb_In in Hk; revert Hk; unfold inb;
  rewrite !existsb_exists; intros (x & Hx & Ex); apply String.eqb_eq in Ex; subst x;
  exists k; (split; [|apply String.eqb_refl]);
  apply inb_In;
  revert k Hx; apply Forall_forall; repeat constructor.
Qed.

Lemma full_sound {V} (o : ops V) m d g ts sol (a : attrs V) :
  List.length sol = List.length ts -> (forall r, In r sol -> List.length r = n_ODE m) ->
  exists a', collect_full o m d g ts sol a = Ok a' /\
    (forall x, In x (append_list m) -> holds (List.length ts) a'
       (fun j => sexec_all o (nth_error ts j) (nth_error sol j) (all_steps o m d g) (env0 j)) x) /\
    (forall x, ~ In x (flat_map writes (all_steps o m d g)) -> a' x = a x).
Proof.
  intros Hl Hr. destruct (all_check o m d g) as (kn & Hk & Hi).
  destruct (exec_all_sound o ts sol (List.length ts) (n_ODE m) Hl Hr
              (all_steps o m d g) a env0 [] kn) as (a' & X & H & F); auto.
  { intros x []. }
  exists a'. rewrite collect_full_all. split; auto.
Qed.

Lemma writes_bool {V} (o : ops V) m d g :
  forallb (fun k => negb (inb (under k) (flat_map writes (all_steps o m d g)))) (append_list m) = true.
Proof. unfold all_steps, ft_steps, ft_v, cs_steps. destruct m, (d_alone d); reflexivity. Qed.
Lemma under_not_written {V} (o : ops V) m d g k :
  In k (append_list m) -> ~ In (under k) (flat_map writes (all_steps o m d g)).
Proof.
  intros Hk. apply not_inb. pose proof (writes_bool o m d g) as H. rewrite forallb_forall in H.
  specialize (H k Hk). destruct (inb (under k) (flat_map writes (all_steps o m d g))); auto.
Qed.

(** ** Sample meaning of a stored series = specification *)
Lemma sample_eq {V} (o : ops V) m d g t r k : List.length r = n_ODE m -> In k (traj_list m) ->
  sexec_all o (Some t) (Some r) (all_steps o m d g) (fun _ => None) k = spec_sample o m d g t r k.
Proof.
  intros Hr. unfold all_steps, ft_steps, ft_v, cs_steps, spec_sample, spec_traj, q_v.
  destruct m;
  (repeat (destruct r as [|? r]; try discriminate Hr)); clear Hr;
  (destruct (d_alone d);
   revert k; apply Forall_forall; repeat (constructor; [reflexivity|]); constructor).
Qed.
