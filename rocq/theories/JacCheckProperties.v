(** Property C117: what the verdict of check_jacobian means. *)
From Coq Require Import Reals List Arith Lra Lia.
From Coquelicot Require Import Coquelicot.
From Verif Require Import JacCheckModel.
Import ListNotations.
Open Scope R_scope.

(** The model along the coordinate line of state c through x: component r as a
    function of the displacement. *)
Definition along (f : vec -> vec) (x : vec) (r c : nat) : R -> R := fun h => f (set x c (x c + h)) r.
(** the partial derivative of component r with respect to state c *)
Definition partial (f : vec -> vec) (x : vec) (r c : nat) : R := Derive (along f x r c) 0.
(** three times differentiable within 2e-6 of the state, third derivative at most M *)
Definition smooth (f : vec -> vec) (x : vec) (r c : nat) (M : R) : Prop :=
  forall h, Rabs h < 2 / 1000000 ->
    (forall k, (k <= 3)%nat -> ex_derive_n (along f x r c) k h) /\ Rabs (Derive_n (along f x r c) 3 h) <= M.

(** error of the central difference *)
Lemma central_difference (g : R -> R) (M e : R) : 0 < e ->
  (forall h, Rabs h < 2 * e -> (forall k, (k <= 3)%nat -> ex_derive_n g k h) /\ Rabs (Derive_n g 3 h) <= M) ->
  Rabs ((g e - g (- e)) / (2 * e) - Derive g 0) <= M * e ^ 2 / 6.
Proof.
  intros He H.
  assert (L : forall t, 0 <= t <= e -> locally (- t) (fun y => forall k, (k <= 3)%nat -> ex_derive_n g k y)).
  { intros t Ht. exists (mkposreal e He). intros y Hy. change (Rabs (y - - t) < e) in Hy.
    apply H. apply Rabs_def2 in Hy. apply Rabs_def1; lra. }
  assert (O : forall t k, 0 <= t <= e -> (k <= 3)%nat -> Derive_n (fun h => g (- h)) k t = (-1) ^ k * Derive_n g k (- t)).
  { intros t k Ht Hk. apply Derive_n_comp_opp. generalize (L t Ht). apply filter_imp. intros y Hy j Hj. apply Hy. lia. }
  destruct (Taylor_Lagrange g 2 0 e He) as (z1 & Z1 & E1).
  { intros t Ht k Hk. apply H; [apply Rabs_def1; lra|lia]. }
  destruct (Taylor_Lagrange (fun h => g (- h)) 2 0 e He) as (z2 & Z2 & E2).
  { intros t Ht k Hk. apply ex_derive_n_comp_opp. generalize (L t Ht). apply filter_imp. intros y Hy j Hj. apply Hy. lia. }
  rewrite (O z2) in E2 by (lra || lia). unfold sum_f_R0 in E1, E2. rewrite !(O 0) in E2 by (lra || lia).
  rewrite Ropp_0 in E2. cbn [Derive_n] in E1, E2. change (Derive_n g 0 0) with (g 0) in *.
  change (Derive (fun x => g x) 0) with (Derive g 0) in *. cbn [fact] in E1, E2.
  set (d1 := Derive g 0) in *. set (d2 := Derive (fun x : R => Derive (fun x : R => g x) x) 0) in *.
  assert (B1 : Rabs (Derive_n g 3 z1) <= M) by (apply H; apply Rabs_def1; lra).
  assert (B2 : Rabs (Derive_n g 3 (- z2)) <= M) by (apply H; apply Rabs_def1; lra).
  change (Derive (fun x : R => Derive (fun x0 : R => Derive (fun x1 : R => g x1) x0) x) z1) with (Derive_n g 3 z1) in *.
  change (Derive (fun x : R => Derive (fun x0 : R => Derive (fun x1 : R => g x1) x0) x) (- z2)) with (Derive_n g 3 (- z2)) in *.
  set (a := Derive_n g 3 z1) in *. set (b := Derive_n g 3 (- z2)) in *. clearbody a b.
  assert (D : (g e - g (- e)) / (2 * e) - d1 = (a + b) / 2 * e ^ 2 / 6).
  { rewrite E1, E2. replace (INR (1 * 1)) with 1 by reflexivity. replace (INR 1) with 1 by reflexivity.
    replace (INR (2 * (1 * 1))) with 2 by (cbn; lra). replace (INR (3 * (2 * (1 * 1)))) with 6 by (cbn; lra).
    replace (e - 0) with e by ring. field. lra. }
  rewrite D. unfold Rdiv. rewrite !Rabs_mult. rewrite (Rabs_pos_eq (/ 2)), (Rabs_pos_eq (/ 6)), (Rabs_pos_eq (e ^ 2)) by (try lra; apply pow2_ge_0).
  assert (Rabs (a + b) <= 2 * M) by (eapply Rle_trans; [apply Rabs_triang|lra]).
  assert (0 <= e ^ 2) by apply pow2_ge_0. nra.
Qed.

Lemma numerical_error f x r c M : smooth f x r c M ->
  Rabs (numerical f x r c - partial f x r c) <= M / 6000000000000.
Proof.
  intros H. replace (M / 6000000000000) with (M * eps ^ 2 / 6) by (unfold eps; field).
  apply (central_difference (along f x r c) M eps); [unfold eps; lra|].
  intros h Hh. apply H. unfold eps in Hh. lra.
Qed.

Lemma flagged_iff f jac x r c : flagged f jac x r c = true <-> / 100 <= Rabs (jac r c - numerical f x r c).
Proof.
  unfold flagged. pose proof (Rabs_pos (jac r c - numerical f x r c)).
  destruct (Rlt_dec _ (/ 100)).
  - destruct (Rlt_dec 0 0); split; intros; try discriminate; lra.
  - destruct (Rlt_dec 0 _); split; intros; try discriminate; auto; lra.
Qed.
Lemma in_entries n r c : In (r, c) (entries n) <-> (r < n /\ c < n)%nat.
Proof.
  unfold entries. rewrite in_flat_map. split.
  - intros (a & Ha & H). apply in_map_iff in H as (b & E & Hb). injection E as -> ->. apply in_seq in Ha, Hb. lia.
  - intros [Hr Hc]. exists r. split; [apply in_seq; lia|]. apply in_map_iff. exists c. split; [reflexivity|apply in_seq; lia].
Qed.
Lemma in_differences n f jac x r c : In (r, c) (differences n f jac x) <->
  (r < n /\ c < n)%nat /\ / 100 <= Rabs (jac r c - numerical f x r c).
Proof. unfold differences. rewrite filter_In, in_entries, <- flagged_iff. reflexivity. Qed.
Lemma verdict n f jac x : check_jacobian n f jac x = true <-> differences n f jac x = [].
Proof.
  unfold check_jacobian. destruct (differences n f jac x); cbn; split; intros; try discriminate; reflexivity.
Qed.

(** * C117 *)
(** For a model with any number of states that is smooth around the current state:
    the verdict is True if every entry of the analytical Jacobian is within one
    hundredth of the partial derivative (less the finite-difference error M/6e12);
    it is False, and the entry is among those printed, whenever an entry is off by
    more; only entries that are off by (about) a hundredth are ever printed. *)
Theorem C117_jacobian_self_check :
  forall n f jac x M, (forall r c, (r < n)%nat -> (c < n)%nat -> smooth f x r c M) ->
  let err r c := Rabs (jac r c - partial f x r c) in
  let tol := M / 6000000000000 in
  ((forall r c, (r < n)%nat -> (c < n)%nat -> err r c < / 100 - tol) -> check_jacobian n f jac x = true) /\
  (forall r c, (r < n)%nat -> (c < n)%nat -> / 100 + tol <= err r c ->
     check_jacobian n f jac x = false /\ In (r, c) (differences n f jac x)) /\
  (forall r c, In (r, c) (differences n f jac x) -> (r < n)%nat /\ (c < n)%nat /\ / 100 - tol <= err r c).
Proof.
  intros n f jac x M S. cbv zeta.
  assert (T : forall r c, (r < n)%nat -> (c < n)%nat ->
    Rabs (jac r c - numerical f x r c) <= Rabs (jac r c - partial f x r c) + M / 6000000000000 /\
    Rabs (jac r c - partial f x r c) <= Rabs (jac r c - numerical f x r c) + M / 6000000000000).
  { intros r c Hr Hc. pose proof (numerical_error f x r c M (S r c Hr Hc)) as E. split.
    - replace (jac r c - numerical f x r c) with ((jac r c - partial f x r c) + - (numerical f x r c - partial f x r c)) by ring.
      eapply Rle_trans; [apply Rabs_triang|]. rewrite Rabs_Ropp. lra.
    - replace (jac r c - partial f x r c) with ((jac r c - numerical f x r c) + (numerical f x r c - partial f x r c)) by ring.
      eapply Rle_trans; [apply Rabs_triang|]. lra. }
  assert (C : forall r c, In (r, c) (differences n f jac x) ->
     (r < n)%nat /\ (c < n)%nat /\ / 100 - M / 6000000000000 <= Rabs (jac r c - partial f x r c)).
  { intros r c H. apply in_differences in H as [[Hr Hc] H]. destruct (T r c Hr Hc). split; [exact Hr|]. split; [exact Hc|lra]. }
  split; [|split; [|exact C]].
  - intros H. apply verdict. destruct (differences n f jac x) as [|[r c] l] eqn:E; [reflexivity|]. exfalso.
    destruct (C r c) as (Hr & Hc & K); [left; reflexivity|]. specialize (H r c Hr Hc). lra.
  - intros r c Hr Hc H. assert (I : In (r, c) (differences n f jac x)).
    { apply in_differences. split; [auto|]. destruct (T r c Hr Hc). lra. }
    split; [|exact I]. destruct (check_jacobian n f jac x) eqn:E; [|reflexivity]. exfalso.
    apply verdict in E. rewrite E in I. exact I.
Qed.
Print Assumptions C117_jacobian_self_check.

(** A two-state model: x0' = x0*x1, x1' = sin x1 at (1, 0); its Jacobian passes,
    a transposed one does not. *)
Definition ex_f (x : vec) : vec := fun r => match r with O => x 0%nat * x 1%nat | _ => sin (x 1%nat) end.
Definition ex_x : vec := fun i => match i with O => 1 | _ => 0 end.
Definition ex_jac (r c : nat) : R := match r, c with O, O => 0 | O, _ => 1 | _, O => 0 | _, _ => 1 end.

Lemma sin_n k : (k <= 3)%nat -> (forall h, ex_derive_n sin k h) /\ (forall h, Rabs (Derive_n sin k h) <= 1).
Proof.
  assert (D : forall h, Derive sin h = cos h) by (intros; apply is_derive_unique; apply is_derive_Reals; apply derivable_pt_lim_sin).
  assert (D2 : forall h, Derive cos h = - sin h) by (intros; apply is_derive_unique; apply is_derive_Reals; apply derivable_pt_lim_cos).
  assert (N1 : forall h, Derive_n sin 1 h = cos h) by (intros; apply D).
  assert (N2 : forall h, Derive_n sin 2 h = - sin h) by (intros; cbn [Derive_n]; rewrite (Derive_ext _ cos) by (intros; apply N1); apply D2).
  assert (N3 : forall h, Derive_n sin 3 h = - cos h).
  { intros h. change (Derive (Derive_n sin 2) h = - cos h). rewrite (Derive_ext _ (fun t => - sin t)) by apply N2.
    rewrite Derive_opp. now rewrite D. }
  intros Hk. split; intros h.
  - destruct k as [|[|[|[|k]]]]; cbn [ex_derive_n]; [trivial| | | |lia].
    + apply (ex_derive_ext sin); [reflexivity|]. exists (cos h). apply is_derive_Reals. apply derivable_pt_lim_sin.
    + apply (ex_derive_ext cos); [intros; symmetry; apply N1|]. exists (- sin h). apply is_derive_Reals. apply derivable_pt_lim_cos.
    + apply (ex_derive_ext (fun t => - sin t)); [intros; symmetry; apply N2|]. apply (ex_derive_opp sin). exists (cos h). apply is_derive_Reals. apply derivable_pt_lim_sin.
  - destruct k as [|[|[|[|k]]]]; [| | | |lia].
    + apply Rabs_le. apply SIN_bound.
    + rewrite N1. apply Rabs_le. apply COS_bound.
    + rewrite N2, Rabs_Ropp. apply Rabs_le. apply SIN_bound.
    + rewrite N3, Rabs_Ropp. apply Rabs_le. apply COS_bound.
Qed.

Lemma set_same x c v : set x c v c = v.
Proof. unfold set. now rewrite Nat.eqb_refl. Qed.

Example C117_hypotheses_met :
  (forall r c, (r < 2)%nat -> (c < 2)%nat -> smooth ex_f ex_x r c 1) /\
  check_jacobian 2 ex_f ex_jac ex_x = true /\
  check_jacobian 2 ex_f (fun r c => ex_jac c r) ex_x = false.
Proof.
  assert (ID : forall j h, Derive_n (fun x : R => x) (Datatypes.S j) h = Derive_n (fun _ => 1) j h).
  { intros j h. replace (Datatypes.S j) with (j + 1)%nat by lia. rewrite <- (Derive_n_comp (fun x : R => x) j 1).
    apply Derive_n_ext. intros u. apply Derive_id. }
  (* the four lines through the state *)
  assert (L00 : forall h, along ex_f ex_x 0 0 h = 0) by (intros; unfold along, ex_f, set, ex_x; cbn; ring).
  assert (L01 : forall h, along ex_f ex_x 0 1 h = h) by (intros; unfold along, ex_f, set, ex_x; cbn; ring).
  assert (L10 : forall h, along ex_f ex_x 1 0 h = 0) by (intros; unfold along, ex_f, set, ex_x; cbn; apply sin_0).
  assert (L11 : forall h, along ex_f ex_x 1 1 h = sin h) by (intros; unfold along, ex_f, set, ex_x; cbn; f_equal; ring).
  assert (S : forall r c, (r < 2)%nat -> (c < 2)%nat -> smooth ex_f ex_x r c 1).
  { assert (K : forall g r c, (forall h, along ex_f ex_x r c h = g h) ->
      (forall h k, (k <= 3)%nat -> ex_derive_n g k h) -> (forall h, Rabs (Derive_n g 3 h) <= 1) -> smooth ex_f ex_x r c 1).
    { intros g r c E X B h _. split.
      - intros k Hk. apply (ex_derive_n_ext g); [intros; symmetry; apply E|auto].
      - rewrite (Derive_n_ext _ g) by apply E. apply B. }
    intros [|[|r]] [|[|c]] Hr Hc; try lia.
    - apply (K (fun _ => 0)); [exact L00| |]; intros; [apply ex_derive_n_const|]. rewrite Derive_n_const. rewrite Rabs_R0. lra.
    - apply (K (fun h => h)); [exact L01| |]; intros.
      + destruct k as [|[|k]]; cbn; [trivial|apply ex_derive_id|].
        apply (ex_derive_ext (Derive_n (fun _ => 1) k)).
        * intros t. symmetry. apply ID.
        * change (ex_derive_n (fun _ => 1) (Datatypes.S k) h). apply ex_derive_n_const.
      + change 3%nat with (2 + 1)%nat. rewrite <- (Derive_n_comp (fun x : R => x) 2 1).
        rewrite (Derive_n_ext _ (fun _ => 1)) by (intros u; apply Derive_id). rewrite Derive_n_const. rewrite Rabs_R0. lra.
    - apply (K (fun _ => 0)); [exact L10| |]; intros; [apply ex_derive_n_const|]. rewrite Derive_n_const. rewrite Rabs_R0. lra.
    - apply (K sin); [exact L11| |]; intros; [now apply sin_n|apply sin_n; lia]. }
  assert (P : partial ex_f ex_x 0 0 = 0 /\ partial ex_f ex_x 0 1 = 1 /\ partial ex_f ex_x 1 0 = 0 /\ partial ex_f ex_x 1 1 = 1).
  { unfold partial. repeat split.
    - rewrite (Derive_ext _ (fun _ => 0)) by apply L00. apply Derive_const.
    - rewrite (Derive_ext _ (fun h => h)) by apply L01. apply Derive_id.
    - rewrite (Derive_ext _ (fun _ => 0)) by apply L10. apply Derive_const.
    - rewrite (Derive_ext _ sin) by apply L11. apply is_derive_unique. rewrite <- cos_0. apply is_derive_Reals. apply derivable_pt_lim_sin. }
  destruct P as (P00 & P01 & P10 & P11). split; [exact S|].
  split.
  - apply (C117_jacobian_self_check 2 ex_f ex_jac ex_x 1 S). intros [|[|r]] [|[|c]] Hr Hc; try lia; cbn [ex_jac]; rewrite ?P00, ?P01, ?P10, ?P11;
      rewrite Rminus_diag_eq by reflexivity; rewrite Rabs_R0; lra.
  - apply (proj1 (proj2 (C117_jacobian_self_check 2 ex_f (fun r c => ex_jac c r) ex_x 1 S)) 0%nat 1%nat); [lia|lia|].
    cbn [ex_jac]. rewrite P01. replace (0 - 1) with (-1) by ring. rewrite Rabs_left by lra. lra.
Qed.
