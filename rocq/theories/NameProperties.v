(** Property C104: instance names. *)
From Coq Require Import String Ascii Decimal DecimalString DecimalNat DecimalFacts.
From Verif Require Import Base ConfigValues ConfigData NameModel.
Open Scope string_scope.

(** * Specification *)
(** what stands between the identifier and the number *)
Definition stem (c : cls) : string :=
  match c with Sim => "sim" | Events => "events" | Results => "results" | GridC => "grid" | _ => class_name c end.
(** how many objects of class [c] have been requested so far *)
Definition requests (c : cls) (ks : list construction) : nat :=
  List.length (filter (fun k => String.eqb (class_name (n_class k)) (class_name c)) ks).

(** * Proofs *)
Definition chars (s : string) : list ascii := list_ascii_of_string s.
Lemma chars_app a b : chars (a ++ b) = (chars a ++ chars b)%list.
Proof. induction a; cbn; f_equal; auto. Qed.
Lemma chars_inj a b : chars a = chars b -> a = b.
Proof. intros H. rewrite <- (string_of_list_ascii_of_string a), <- (string_of_list_ascii_of_string b). unfold chars in H. congruence. Qed.
(** the text after the last [c] is determined *)
Lemma last_sep {A} (c : A) : forall a b x y, (x ++ c :: a = y ++ c :: b)%list -> ~ In c a -> ~ In c b -> x = y /\ a = b.
Proof.
  intros a b x. induction x as [|h x IH]; intros y H Ha Hb; destruct y as [|k y]; cbn in H.
  - injection H as ->. auto.
  - injection H as -> ->. exfalso. apply Ha. apply in_or_app. right. now left.
  - injection H as -> <-. exfalso. apply Hb. apply in_or_app. right. now left.
  - injection H as -> H. destruct (IH y H Ha Hb) as [-> ->]. auto.
Qed.
Lemma digits_no c d : In c (chars (NilEmpty.string_of_uint d)) -> In c (chars "0123456789").
Proof.
  induction d as [|d IH|d IH|d IH|d IH|d IH|d IH|d IH|d IH|d IH|d IH];
    cbn [NilEmpty.string_of_uint]; intros H; [destruct H|..];
    cbn [chars list_ascii_of_string In] in H; (destruct H as [<-|H]; [cbn; tauto|exact (IH H)]).
Qed.
Lemma py_str_digits c n : In c (chars (py_str n)) -> In c (chars "0123456789").
Proof. unfold py_str, NilZero.string_of_uint. destruct (Nat.to_uint n); [cbn; tauto|..]; apply digits_no. Qed.
Lemma py_str_inj a b : py_str a = py_str b -> a = b.
Proof.
  intros H. unfold py_str in H.
  assert (N : forall n, Nat.to_uint n <> Nil).
  { intros n E. pose proof (Unsigned.to_of (Nat.to_uint n)) as T. rewrite Unsigned.of_to in T. rewrite E in T. discriminate. }
  assert (E : Some (Nat.to_uint a) = Some (Nat.to_uint b)).
  { rewrite <- (NilZero.usu _ (N a)), <- (NilZero.usu _ (N b)). now rewrite H. }
  injection E as E. rewrite <- (Unsigned.of_to a), <- (Unsigned.of_to b). now rewrite E.
Qed.
Lemma no_sep_digits n : ~ In "_"%char (chars (py_str n)) /\ ~ In "-"%char (chars (py_str n)).
Proof. split; intros H; apply py_str_digits in H; cbn in H; intuition discriminate. Qed.

Lemma name_eq c n i : c <> GridC -> name_instance (class_name c) n i = Ok (n, i ++ "-" ++ stem c ++ "_" ++ py_str n).
Proof. intros H. destruct c; try reflexivity. congruence. Qed.

Lemma create_ok w c i : c <> GridC -> create w (New c (Ok i)) = (bump w c, Ok (bump w c c, i ++ "-" ++ stem c ++ "_" ++ py_str (bump w c c))).
Proof. intros H. rewrite <- name_eq by auto. destruct c; try reflexivity. congruence. Qed.
Lemma create_bad w c e : c <> GridC -> create w (New c (Raise e)) = (bump w c, Raise e).
Proof. intros H. destruct c; try reflexivity. congruence. Qed.

Definition adds (w : counters) (ks : list construction) : counters := fun c => (requests c ks + w c)%nat.
Lemma create_fst w k c : fst (create w k) c = adds w [k] c.
Proof.
  destruct k as [d [i|e]]; unfold adds, requests, create; cbn [n_class n_ident filter].
  all: assert (X : bump w d c = (List.length (if String.eqb (class_name d) (class_name c) then [New d (Ok "")] else []) + w c)%nat)
       by (unfold bump, cls_eqb; destruct (String.eqb _ _); reflexivity).
  all: destruct d; cbn [fst]; rewrite X; destruct (String.eqb _ _); reflexivity.
Qed.
Lemma requests_app c l m : requests c (l ++ m) = (requests c l + requests c m)%nat.
Proof. unfold requests. now rewrite filter_app, app_length. Qed.
Lemma create_ext w w' k : (forall c, w c = w' c) -> snd (create w k) = snd (create w' k).
Proof.
  intros H. assert (B : forall c, bump w c c = bump w' c c) by (intros c; unfold bump; now rewrite H).
  destruct k as [d [i|e]]; unfold create; cbn [n_class n_ident]; destruct d; cbn [snd]; rewrite ?B; reflexivity.
Qed.
Lemma create_all_nth : forall ks w i k, nth_error ks i = Some k ->
  nth_error (create_all w ks) i = Some (snd (create (adds w (firstn i ks)) k)).
Proof.
  induction ks as [|k0 ks IH]; intros w i k H; [destruct i; discriminate|]. cbn [create_all].
  destruct (create w k0) as [w1 r] eqn:E. destruct i as [|i]; cbn [nth_error firstn] in *.
  - injection H as ->. assert (X : snd (create (adds w []) k) = snd (create w k)) by (apply create_ext; reflexivity).
    rewrite X, E. reflexivity.
  - rewrite (IH w1 i k H). f_equal. apply create_ext. intros c.
    pose proof (create_fst w k0 c) as F. rewrite E in F. cbn [fst] in F. unfold adds. rewrite F. unfold adds.
    pose proof (requests_app c [k0] (firstn i ks)) as R. cbn [app] in R. rewrite R. lia.
Qed.

Lemma nth_firstn (ks : list construction) : forall i k, nth_error ks i = Some k -> firstn (S i) ks = (firstn i ks ++ [k])%list.
Proof.
  induction ks as [|x ks IH]; intros i k H; [destruct i; discriminate|].
  destruct i as [|i]; cbn [nth_error] in H; [injection H as ->; reflexivity|].
  cbn [firstn app]. rewrite <- (IH i k H). reflexivity.
Qed.
Lemma requests_one c : requests (n_class c) [c] = 1%nat.
Proof. unfold requests. cbn [filter]. now rewrite String.eqb_refl. Qed.
Lemma bump_self w c : bump w c c = S (w c).
Proof. unfold bump, cls_eqb. now rewrite String.eqb_refl. Qed.

(** Every object is numbered by the requests for its class made so far, failed
    ones included, and its name is identifier-stem_number (grid_number for a
    grid). *)
Theorem C104_names :
  forall ks i k, nth_error ks i = Some k ->
  let n := requests (n_class k) (firstn (S i) ks) in
  nth_error (create_all fresh ks) i =
    Some (match n_class k with
          | GridC => Ok (n, "grid_" ++ py_str n)
          | c => match n_ident k with
                 | Ok identifier => Ok (n, identifier ++ "-" ++ stem c ++ "_" ++ py_str n)
                 | Raise e => Raise e
                 end
          end).
Proof.
  intros ks i k H. cbv zeta. rewrite (create_all_nth ks fresh i k H). f_equal.
  rewrite (nth_firstn ks i k H), requests_app, requests_one.
  set (w := adds fresh (firstn i ks)).
  assert (N : bump w (n_class k) (n_class k) = (requests (n_class k) (firstn i ks) + 1)%nat).
  { rewrite bump_self. unfold w, adds, fresh. lia. }
  rewrite <- N. clearbody w. clear. destruct k as [c [s|e]]; destruct c; reflexivity.
Qed.
Print Assumptions C104_names.

Lemma requests_mono c ks i j : (i <= j)%nat -> (requests c (firstn i ks) <= requests c (firstn j ks))%nat.
Proof.
  intros H. replace (firstn j ks) with (firstn i ks ++ firstn (j - i) (skipn i ks))%list.
  - rewrite requests_app. lia.
  - transitivity (firstn (i + (j - i)) ks); [|f_equal; lia]. symmetry. rewrite firstn_skipn_comm.
    replace (i + (j - i))%nat with j by lia. 
    rewrite <- (firstn_skipn i (firstn j ks)) at 1. rewrite firstn_firstn. now rewrite Nat.min_l by lia.
Qed.
Lemma requests_strict c ks i j k : nth_error ks j = Some k -> n_class k = c -> (i < j)%nat ->
  (requests c (firstn (S i) ks) < requests c (firstn (S j) ks))%nat.
Proof.
  intros H <- L. rewrite (nth_firstn ks j k H), requests_app, requests_one.
  pose proof (requests_mono (n_class k) ks (S i) j L). lia.
Qed.

Lemma full_split i1 i2 c1 c2 n1 n2 :
  i1 ++ "-" ++ stem c1 ++ "_" ++ py_str n1 = i2 ++ "-" ++ stem c2 ++ "_" ++ py_str n2 -> c1 = c2 /\ n1 = n2 /\ i1 = i2.
Proof.
  intros H. apply (f_equal chars) in H. rewrite !chars_app in H.
  change (chars "-") with ["-"%char] in H. change (chars "_") with ["_"%char] in H. cbn [app] in H.
  assert (A : forall i c (n : nat), (chars i ++ "-"%char :: chars (stem c) ++ "_"%char :: chars (py_str n) =
     (chars i ++ "-"%char :: chars (stem c)) ++ "_"%char :: chars (py_str n))%list) by (intros; now rewrite <- app_assoc).
  rewrite !A in H. apply last_sep in H as [H N]; try apply no_sep_digits. apply chars_inj, py_str_inj in N.
  apply last_sep in H as [H S].
  - apply chars_inj in H. apply chars_inj in S. split; [|auto]. destruct c1, c2; try reflexivity; discriminate.
  - destruct c1; cbn; intuition discriminate.
  - destruct c2; cbn; intuition discriminate.
Qed.
Lemma grid_split i c n m : i ++ "-" ++ stem c ++ "_" ++ py_str n <> "grid_" ++ py_str m.
Proof.
  intros H. apply (f_equal chars) in H. rewrite !chars_app in H.
  assert (I : In "-"%char (chars "grid_" ++ chars (py_str m))%list) by (rewrite <- H; apply in_or_app; right; now left).
  apply in_app_or in I as [I|I]; [cbn in I; intuition discriminate|]. now apply no_sep_digits in I.
Qed.

(** Whatever is constructed in a process, in whatever order, with whatever
    identifiers (repeated or not, containing any characters) and however many
    constructions fail: no two objects have the same name. *)
Theorem C104_unique :
  forall ks i j ni nj name,
  nth_error (create_all fresh ks) i = Some (Ok (ni, name)) ->
  nth_error (create_all fresh ks) j = Some (Ok (nj, name)) -> i = j.
Proof.
  intros ks i j ni nj name Hi Hj.
  assert (L : List.length (create_all fresh ks) = List.length ks).
  { generalize fresh. clear. induction ks as [|k ks IH]; intros w; cbn [create_all]; [reflexivity|].
    destruct (create w k). cbn [List.length]. now rewrite IH. }
  assert (G : forall p x, nth_error (create_all fresh ks) p = Some x -> exists k, nth_error ks p = Some k).
  { intros p x Hp. destruct (nth_error ks p) eqn:E; [eauto|]. apply nth_error_None in E. rewrite <- L in E.
    apply nth_error_None in E. congruence. }
  destruct (G i _ Hi) as (a & Ha). destruct (G j _ Hj) as (b & Hb).
  rewrite (C104_names ks i a Ha) in Hi. rewrite (C104_names ks j b Hb) in Hj.
  assert (K : n_class a = n_class b /\ requests (n_class a) (firstn (S i) ks) = requests (n_class b) (firstn (S j) ks)).
  { assert (V : forall k (n m : nat), Some (match n_class k with GridC => Ok (n, "grid_" ++ py_str n) | c =>
         match n_ident k with Ok identifier => Ok (n, identifier ++ "-" ++ stem c ++ "_" ++ py_str n) | Raise e => Raise e end end)
         = Some (Ok (m, name)) ->
       n_class k = GridC /\ name = "grid_" ++ py_str n \/
       exists s, n_class k <> GridC /\ name = s ++ "-" ++ stem (n_class k) ++ "_" ++ py_str n).
    { intros k n m E. destruct k as [c [s|e]]; cbn [n_class n_ident] in *.
      all: destruct c; try (left; split; [reflexivity|congruence]); try discriminate.
      all: right; exists s; split; [discriminate|congruence]. }
    apply V in Hi as [[E1 E2]|(s1 & E1 & E2)]; apply V in Hj as [[F1 F2]|(s2 & F1 & F2)].
    - split; [congruence|]. rewrite E2 in F2. 
      apply (f_equal chars) in F2. rewrite !chars_app in F2. apply app_inv_head in F2. apply chars_inj, py_str_inj in F2. exact F2.
    - exfalso. rewrite E2 in F2. symmetry in F2. now apply grid_split in F2.
    - exfalso. rewrite F2 in E2. symmetry in E2. now apply grid_split in E2.
    - rewrite E2 in F2. apply full_split in F2 as (C & N & _). auto. }
  destruct K as [K1 K2]. rewrite K1 in K2.
  destruct (Nat.lt_trichotomy i j) as [X|[X|X]]; [|exact X|]; exfalso.
  - pose proof (requests_strict _ ks i j b Hb eq_refl X). lia.
  - rewrite <- K1 in K2. pose proof (requests_strict _ ks j i a Ha eq_refl X). lia.
Qed.
Print Assumptions C104_unique.

Example C104_hypotheses_met :
  create_all fresh [New DER3 (Ok ""); New DERb (Ok "feeder-1"); New DER3 (Raise KeyError); New DER3 (Ok ""); New Sim (Ok "None");
                    New GridC (Ok ""); New DER3 (Ok "-SolarPVDERThreePhase_1")] =
  [Ok (1%nat, "-SolarPVDERThreePhase_1"); Ok (1%nat, "feeder-1-SolarPVDERThreePhaseBalanced_1"); Raise KeyError;
   Ok (3%nat, "-SolarPVDERThreePhase_3"); Ok (1%nat, "None-sim_1"); Ok (1%nat, "grid_1");
   Ok (4%nat, "-SolarPVDERThreePhase_1-SolarPVDERThreePhase_4")].
Proof. vm_compute. reflexivity. Qed.
