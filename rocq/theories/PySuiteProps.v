(** Theorems about the Python classes Suite and Problem (C78, C79, C80). *)
From Coq Require Import List Arith NArith ZArith Ascii String Bool Lia Sorted.
From Verif Require Import CBase StrModel StrSpec OptModel OptSpec SuiteModel SuiteSpec SuiteProofs SuiteBuildProofs SuiteProps IdModel IdSpec IdProofs IdProps PySuiteModel PySuiteSpec PySuiteProofs PySuiteProofs2 PyFitsProofs.
Import ListNotations.
Local Open Scope nat_scope.

(** ** C78: the problems of a Python suite *)

(** Creation. *)
Theorem C78_creation : forall name inst options, small inst -> small options ->
  (~ In name python_names -> new_suite name inst options = Raise ValueError) /\
  (In name python_names -> exists d, coco_suite_initialize name = Ok d /\
    (coco_suite d inst options = Ok None -> new_suite name inst options = Raise NoSuchSuite) /\
    (forall s, coco_suite d inst options = Ok (Some s) ->
       exists ps, new_suite name inst options = Ret ps /\ made_from name inst options s ps /\ usable ps)).
Proof.
  intros name inst options Hi Ho. change python_names with (map fst known_suite_names).
  assert (L : match lookup name known_suite_names with Some _ => In name (map fst known_suite_names)
              | None => ~ In name (map fst known_suite_names) end).
  { induction known_suite_names as [|[n k] l IH]; cbn; [intros []|].
    destruct (streq name n) eqn:E; [apply streq_spec in E; left; auto|].
    destruct (lookup name l); [right; auto|]. intros [X|X]; auto. subst n.
    pose proof (proj2 (streq_spec name name) eq_refl). congruence. }
  split.
  - intros N. unfold new_suite. destruct (lookup name known_suite_names); [contradiction|reflexivity].
  - intros K. destruct (lookup name known_suite_names) as [k|] eqn:E; [|contradiction]. clear L.
    assert (D : exists d, coco_suite_initialize name = Ok d).
    { cbn in K. repeat (destruct K as [<-|K]; [vm_compute; eauto|]). contradiction. }
    destruct D as [d D]. exists d. split; auto. split.
    + intros N. unfold new_suite. rewrite E, D, N. reflexivity.
    + intros s S. pose proof (suite_fits _ _ _ _ _ D S) as F. destruct (built name d inst options s D Hi Ho S) as [_ Sw].
      destruct (problem_ids_ok k (all_problems s)) as [is P].
      { intros p. apply problem_id_ok. auto. }
      eexists. assert (R : new_suite name inst options = Ret (mk_pysuite (Some s) k (map dep_index (all_problems s)) is
        (map dep_dimension (all_problems s)) None None true [] [])).
      { unfold new_suite. rewrite E, D, S, Sw, P. reflexivity. }
      split; [exact R|]. split; [|reflexivity]. exists d. eexists. exists []. split; auto. split; auto. split; [exact R|reflexivity].
Qed.

(** The numbers of every suite are values of size_t, however large those in the strings are. *)
Theorem C78_fits : forall name d inst options s, coco_suite_initialize name = Ok d -> coco_suite d inst options = Ok (Some s) -> fits s.
Proof. exact suite_fits. Qed.

(** The length, the ids and the dimensions. *)
Theorem C78_contents : forall name inst options s ps, small inst -> small options -> made_from name inst options s ps ->
  List.length (indices ps) = List.length (all_problems s) /\
  Forall2 (fun p t => problem_id (kind ps) p = Ok t) (all_problems s) (ids ps) /\
  StronglySorted N.lt (suite_dimensions ps) /\
  (forall d, In d (suite_dimensions ps) <-> exists p, In p (all_problems s) /\ dep_dimension p = d).
Proof.
  intros name inst options s ps Hi Ho M. destruct (made_inv _ _ _ _ _ Hi Ho M) as (k & is & _ & P & I & _).
  split; [rewrite (i_indices _ _ _ _ I); apply map_length|].
  split; [rewrite (i_kind _ _ _ _ I), (i_ids _ _ _ _ I); apply problem_ids_map; auto|].
  assert (Ins : forall n l x, In x (insert n l) <-> x = n \/ In x l).
  { intros n. induction l as [|m l IH]; intros x; cbn; [intuition|].
    destruct (N.ltb_spec n m); [cbn; intuition|]. destruct (N.eqb_spec n m) as [->|]; [cbn; intuition|].
    cbn. rewrite IH. intuition. }
  unfold suite_dimensions. rewrite (i_dims _ _ _ _ I). split.
  - generalize (map dep_dimension (all_problems s)). induction l as [|n l IH]; cbn; [constructor|].
    revert IH. generalize (fold_right insert [] l). clear - Ins. induction l as [|m l IH]; intros S; cbn; [repeat constructor|].
    inversion S as [|? ? S1 S2]; subst. destruct (N.ltb_spec n m).
    + constructor; auto. constructor; auto. rewrite Forall_forall in *. intros x X. specialize (S2 x X). lia.
    + destruct (N.eqb_spec n m); auto. constructor; auto. rewrite Forall_forall in *. intros x X. apply Ins in X.
      destruct X as [->|X]; [lia|]. auto.
  - intros d. assert (F : forall l, In d (fold_right insert [] l) <-> In d l).
    { induction l as [|n l IH]; cbn; [tauto|]. rewrite Ins, IH. intuition. }
    rewrite F, in_map_iff. split; intros (p & A & B); exists p; auto.
Qed.

(** Indexing by an integer, after any operations, also of a problem that was obtained before. *)
Theorem C78_by_index : forall name inst options s ps z, small inst -> small options -> made_from name inst options s ps -> usable ps ->
  (forall p, at_index (all_problems s) z p -> returns_problem ps (get_problem ps (KInt z)) p) /\
  ((forall p, ~ at_index (all_problems s) z p) -> get_problem ps (KInt z) = (Raise NoSuchProblem, ps)).
Proof.
  intros name inst options s ps z Hi Ho M U. destruct (made_inv _ _ _ _ _ Hi Ho M) as (k & is & _ & P & I & Sz).
  eapply look_index; eauto.
Qed.

(** Indexing by an id; an unknown id is a ValueError. *)
Theorem C78_by_id : forall name inst options s ps t, small inst -> small options -> made_from name inst options s ps -> usable ps ->
  (forall p, first_with (fun q => problem_id (kind ps) q = Ok t) (all_problems s) p -> returns_problem ps (get_problem ps (KStr t)) p) /\
  ((forall p, In p (all_problems s) -> problem_id (kind ps) p <> Ok t) -> get_problem ps (KStr t) = (Raise ValueError, ps)).
Proof.
  intros name inst options s ps t Hi Ho M U. destruct (made_inv _ _ _ _ _ Hi Ho M) as (k & is & _ & P & I & Sz).
  rewrite (i_kind _ _ _ _ I). eapply look_id; eauto.
Qed.

(** Every problem of the suite is found by its id, up to its position when the suite lists an instance repeatedly. *)
Theorem C78_own_id : forall name inst options s ps p t, small inst -> small options -> made_from name inst options s ps -> usable ps ->
  In p (all_problems s) -> problem_id (kind ps) p = Ok t ->
  exists q, returns_problem ps (get_problem ps (KStr t)) q /\ dep_function q = dep_function p /\
    dep_dimension q = dep_dimension p /\ dep_instance q = dep_instance p.
Proof.
  intros name inst options s ps p t Hi Ho M U H E. pose proof (made_fits _ _ _ _ _ M) as F.
  assert (Ex : forall l, In p l -> exists q, first_with (fun r => problem_id (kind ps) r = Ok t) l q).
  { induction l as [|a l IH]; intros [].
    - subst a. exists p, [], l. auto.
    - destruct (problem_id (kind ps) a) as [t'| |] eqn:A.
      + destruct (list_eq_dec ascii_dec t' t) as [->|Ne].
        * exists a, [], l. auto.
        * destruct (IH H0) as (q & l1 & l2 & -> & Q1 & Q2). exists q, (a :: l1), l2. split; auto. split; auto.
          constructor; auto. congruence.
      + destruct (IH H0) as (q & l1 & l2 & -> & Q1 & Q2). exists q, (a :: l1), l2. split; auto. split; auto.
        constructor; auto. congruence.
      + destruct (IH H0) as (q & l1 & l2 & -> & Q1 & Q2). exists q, (a :: l1), l2. split; auto. split; auto.
        constructor; auto. congruence. }
  destruct (Ex _ H) as [q Q]. exists q. destruct (C78_by_id _ _ _ _ _ t Hi Ho M U) as [A _]. split; [auto|].
  destruct Q as (l1 & l2 & EQ & Q1 & _).
  assert (Iq : In q (all_problems s)) by (rewrite EQ, in_app_iff; right; left; reflexivity).
  destruct (fits_problem s p F H) as (P1 & P2 & P3). destruct (fits_problem s q F Iq) as (R1 & R2 & R3).
  destruct (C41_distinct _ _ _ _ _ _ _ _ R1 R3 R2 P1 P3 P2 Q1 E) as (X & Y & Z). auto.
Qed.

(** Look-up by the three numbers. *)
Theorem C78_by_numbers : forall name inst options s ps f d i, small inst -> small options -> made_from name inst options s ps ->
  usable ps ->
  (forall p, first_with (fun q => Z.of_N (dep_function q) = f /\ Z.of_N (dep_dimension q) = d /\ Z.of_N (dep_instance q) = i)
               (all_problems s) p -> (f < 2 ^ 64)%Z -> (d < 2 ^ 64)%Z -> (i < 2 ^ 64)%Z ->
     returns_problem ps (get_problem_by_function_dimension_instance ps f d i) p) /\
  ((0 <= f < 2 ^ 64)%Z -> (0 <= d < 2 ^ 64)%Z -> (0 <= i < 2 ^ 64)%Z ->
   (forall p, In p (all_problems s) ->
      ~ (Z.of_N (dep_function p) = f /\ Z.of_N (dep_dimension p) = d /\ Z.of_N (dep_instance p) = i)) ->
     get_problem_by_function_dimension_instance ps f d i = (Raise NoSuchProblem, ps)) /\
  (~ (0 <= f < 2 ^ 64)%Z \/ ~ (0 <= d < 2 ^ 64)%Z \/ ~ (0 <= i < 2 ^ 64)%Z ->
     get_problem_by_function_dimension_instance ps f d i = (Raise OverflowError, ps)).
Proof.
  intros name inst options s ps f d i Hi Ho M U. destruct (made_inv _ _ _ _ _ Hi Ho M) as (k & is & _ & P & I & Sz).
  destruct (look_numbers k s is ps I Sz U f d i) as [A B]. split; [exact A|]. split; [exact B|].
  intros N. unfold get_problem_by_function_dimension_instance.
  assert (St : forall z, ~ (0 <= z < 2 ^ 64)%Z -> size_t z = None).
  { intros z Z. unfold size_t. destruct (Z.leb_spec 0 z), (Z.ltb_spec z (2 ^ 64)); auto. lia. }
  destruct N as [N|[N|N]]; rewrite (St _ N); auto.
  - destruct (size_t f); auto.
  - destruct (size_t f); auto. destruct (size_t d); auto.
Qed.

(** Searching ids by snippets. *)
Theorem C78_ids : forall name inst options s ps snippets select, small inst -> small options -> made_from name inst options s ps ->
  (forall t, select t = true <-> Forall (fun u => part_of u t) snippets) ->
  find_ids ps snippets = filter select (ids ps) /\
  (usable ps -> forall p, first_with (fun q => exists t, problem_id (kind ps) q = Ok t /\ Forall (fun u => part_of u t) snippets)
       (all_problems s) p -> returns_problem ps (find_problem ps snippets) p) /\
  (Forall (fun t => select t = false) (ids ps) -> find_problem ps snippets = (Raise IndexError, ps)).
Proof.
  intros name inst options s ps snippets select Hi Ho M Sel. destruct (made_inv _ _ _ _ _ Hi Ho M) as (k & is & _ & P & I & Sz).
  assert (FE : forall t, forallb (contains t) snippets = select t).
  { intros t. apply eq_true_iff_eq. rewrite forallb_forall, Sel, Forall_forall. split; intros H u Hu.
    - apply contains_spec. auto.
    - apply contains_spec. auto. }
  assert (F : find_ids ps snippets = filter select (ids ps)).
  { unfold find_ids. apply filter_ext. auto. }
  split; [exact F|]. split.
  - intros U p (l1 & l2 & E & (t & T & S) & B).
    pose proof (C78_contents _ _ _ _ _ Hi Ho M) as (_ & F2 & _).
    assert (H : find_ids ps snippets = t :: tl (find_ids ps snippets)).
    { rewrite F. clear - E T S B F2 Sel. rewrite E in F2. clear E. revert F2. generalize (ids ps).
      induction l1 as [|a l1 IH]; intros l F2; inversion F2 as [|? y ? l' X1 X2]; subst; cbn [app] in *.
      - assert (y = t) by congruence. subst y. cbn. rewrite (proj2 (Sel t) S). reflexivity.
      - inversion B as [|? ? B1 B2]; subst. cbn. destruct (select y) eqn:Y; [|apply IH; auto].
        exfalso. apply B1. exists y. split; auto. apply Sel. auto. }
    unfold find_problem. rewrite H. destruct (C78_by_id _ _ _ _ _ t Hi Ho M U) as [A _]. apply A.
    exists l1, l2. split; auto. split; auto. rewrite Forall_forall in *. intros q Q Eq. apply (B q Q). exists t. split; [exact Eq|]. apply Forall_forall. exact S.
  - intros N. unfold find_problem. rewrite F.
    assert (Z : filter select (ids ps) = []).
    { clear - N. induction (ids ps) as [|t l IH]; auto. inversion N as [|? ? N1 N2]; subst. cbn. rewrite N1. auto. }
    rewrite Z. reflexivity.
Qed.

(** A loop over the suite, in whatever state the suite is and whatever the body does besides moving the suite: exactly the
    problems of the suite in order, each valid when it is yielded, then None, for ever. *)
Theorem C78_iterate : forall name inst options s ps body m, small inst -> small options -> made_from name inst options s ps ->
  usable ps -> (forall j h, Forall quiet (body j h)) ->
  fst (iterate (List.length (all_problems s) + m) body ps) =
    map (fun p => Ret (Some p)) (all_problems s) ++ repeat (Ret None) m /\
  usable (snd (iterate (List.length (all_problems s) + m) body ps)).
Proof.
  intros name inst options s ps body m Hi Ho M U Q. destruct (made_inv _ _ _ _ _ Hi Ho M) as (k & is & _ & P & I & Sz).
  unfold iterate. assert (U1 : initialized (reset ps) = true).
  { unfold reset. cbn. destruct (free_current_rest ps) as (_ & _ & _ & _ & _ & _ & _ & H & _). rewrite H. exact U. }
  destruct (rounds_spec k s is body Q Sz (List.length (all_problems s) + m) 0 0 (reset ps) (reset_inv _ _ _ _ I) U1 eq_refl) as (A & _ & C).
  split; [|exact C]. rewrite A. cbn [skipn].
  set (l := map (fun p => Ret (Some p)) (all_problems s)).
  assert (L : List.length (all_problems s) = List.length l) by (symmetry; apply map_length). rewrite L.
  rewrite firstn_app_2. f_equal. rewrite Nat.add_comm, repeat_app. rewrite <- (repeat_length (Ret (@None problem)) m) at 1.
  rewrite <- (Nat.add_0_r (List.length (repeat (Ret None) m))), firstn_app_2. cbn. apply app_nil_r.
Qed.

(** The steps of a loop written with next_problem: the problem behind the current index. *)
Theorem C78_next : forall name inst options s ps, small inst -> small options -> made_from name inst options s ps -> usable ps ->
  let i := match current_index ps with None => 0 | Some j => j + 1 end in
  exists r ps', next_problem ps = (Ret r, ps') /\ current_index ps' = Some i /\ current ps' = r /\
    match nth_error (all_problems s) i with
    | Some p => exists h, r = Some h /\ nth_error (objects ps') h = Some (mk_pobj p true)
    | None => r = None
    end.
Proof.
  intros name inst options s ps Hi Ho M U i. destruct (made_inv _ _ _ _ _ Hi Ho M) as (k & is & _ & P & I & Sz).
  destruct (next_step k s is ps i I Sz U eq_refl) as (r & ps' & A & B & C & D & E). exists r, ps'.
  split; auto. split; auto. split; auto. destruct (nth_error (all_problems s) i); auto.
  destruct E as (h & E1 & _ & E2). exists h. auto.
Qed.

(** After free() nothing is handed out any more, and nothing reaches the C library. *)
Theorem C78_after_free : forall name inst options s ps os o, small inst -> small options -> made_from name inst options s ps ->
  let ps' := run (free_suite ps) os in
  match o with
  | Next | Get _ => perform ps' o = (Raise ValueError, ps')
  | ByNumbers f d i => perform ps' o = (Raise ValueError, ps') \/ perform ps' o = (Raise OverflowError, ps')
  | Find _ => perform ps' o = (Raise ValueError, ps') \/ perform ps' o = (Raise IndexError, ps')
  | _ => exists r ps'', perform ps' o = (Ret r, ps'')
  end.
Proof.
  intros name inst options s ps os o Hi Ho M ps'.
  assert (N : initialized ps' = false).
  { unfold ps'. assert (G : forall os q, initialized q = false -> initialized (run q os) = false).
    { induction os0 as [|o0 os0 IH]; intros q H; cbn; auto. apply IH. destruct o0; cbn.
      - unfold next_problem. rewrite H. exact H.
      - destruct (free_current_rest q) as (_ & _ & _ & _ & _ & _ & _ & X & _). congruence.
      - unfold get_problem. rewrite H. exact H.
      - unfold get_problem_by_function_dimension_instance. destruct (size_t f), (size_t d), (size_t i); auto. rewrite H. exact H.
      - unfold find_problem. destruct (find_ids q snippets); auto. unfold get_problem. rewrite H. exact H.
      - destruct (free_problem_rest q h) as (_ & _ & _ & _ & _ & _ & _ & X & _). congruence.
      - destruct (free_problem_rest q h) as (_ & _ & _ & _ & _ & _ & _ & X & _).
        destruct (current q) as [c|]; [destruct (c =? h)|]; congruence.
      - reflexivity. }
    apply G. reflexivity. }
  destruct o; cbn [perform].
  - unfold next_problem. rewrite N. reflexivity.
  - eauto.
  - unfold get_problem. rewrite N. reflexivity.
  - unfold get_problem_by_function_dimension_instance. destruct (size_t f), (size_t d), (size_t i); cbn; auto. rewrite N. auto.
  - unfold find_problem. destruct (find_ids ps' snippets); cbn; auto. unfold get_problem. rewrite N. auto.
  - eauto.
  - eauto.
  - eauto.
Qed.

(** ** C79: the numbers in ids *)
Lemma digit_cases : forall c, In c (str IdSpec.digits) -> isdigit c = true /\ Ascii.eqb c "_"%char = false.
Proof. intros c H. cbn in H. repeat (destruct H as [<-|H]; [split; reflexivity|]). contradiction. Qed.
Lemma before_digits : forall t c r, Forall (fun c => In c (str IdSpec.digits)) t -> c = "_"%char -> before_underscore (t ++ c :: r) = t.
Proof.
  induction t as [|a t IH]; intros c r D ->; cbn; auto. inversion D as [|? ? D1 D2]; subst.
  rewrite (proj2 (digit_cases a D1)). f_equal. auto.
Qed.
Lemma behind_digits : forall t u r, Forall (fun c => In c (str IdSpec.digits)) t ->
  behind (t ++ "_"%char :: u :: r) ["_"%char; u] = Some r.
Proof.
  induction t as [|a t IH]; intros u r D.
  - cbn. rewrite Ascii.eqb_refl. reflexivity.
  - inversion D as [|? ? D1 D2]; subst. cbn [app behind is_prefix].
    assert (E : Ascii.eqb "_"%char a = false).
    { destruct (Ascii.eqb_spec "_"%char a) as [<-|]; auto. pose proof (proj2 (digit_cases _ D1)). discriminate. }
    rewrite E. cbn [andb]. apply IH. auto.
Qed.
Lemma py_int_number : forall w n t, numeral w n t -> py_int t = Some n.
Proof.
  intros w n t (V & D & Ne & _). unfold py_int. destruct t as [|c t]; [congruence|].
  assert (A : forallb isdigit (c :: t) = true).
  { apply forallb_forall. intros x X. rewrite Forall_forall in D. apply digit_cases. auto. }
  rewrite A. f_equal. rewrite <- V. unfold number. generalize 0%N. clear. induction (c :: t) as [|a l IH]; intros m; auto.
  cbn [fold_left]. rewrite IH. f_equal. unfold code, nat_of_ascii. lia.
Qed.

Theorem C79_numbers : forall k f i d t, (f < 2 ^ 64)%N -> (i < 2 ^ 64)%N -> (d < 2 ^ 64)%N -> suite_problem_id k f i d = Ok t ->
  id_function t = Ret f /\ id_instance t = Ret i.
Proof.
  intros k f i d t Hf Hi Hd E.
  destruct (C41_suite_ids k f i d Hf Hi Hd) as (name & wf & wi & wd & t' & R & E' & (tf & ti & td & Nf & Ni & Nd & T) & _).
  assert (TT : t' = t) by congruence. rewrite TT in T. clear E E' TT.
  assert (Df : Forall (fun c => In c (str IdSpec.digits)) tf) by apply Nf.
  assert (Di : Forall (fun c => In c (str IdSpec.digits)) ti) by apply Ni.
  set (r := ti ++ "_"%char :: "d"%char :: td).
  assert (B1 : behind t (str "_f") = Some (tf ++ "_"%char :: "i"%char :: r)).
  { rewrite T. destruct k; vm_compute in R; injection R as <- <- <- <-; reflexivity. }
  assert (B2 : behind t (str "_i") = Some r).
  { rewrite T. assert (G : behind (tf ++ "_"%char :: "i"%char :: r) ["_"%char; "i"%char] = Some r) by (apply behind_digits; auto).
    destruct k; vm_compute in R; injection R as <- <- <- <-; exact G. }
  unfold id_function, id_instance, parse_id. rewrite B1, B2. unfold r.
  rewrite !before_digits by auto. rewrite (py_int_number _ _ _ Nf), (py_int_number _ _ _ Ni). auto.
Qed.

(** For the ids of a suite. *)
Theorem C79_suite : forall name inst options s ps j p t, small inst -> small options -> made_from name inst options s ps ->
  nth_error (all_problems s) j = Some p -> nth_error (ids ps) j = Some t ->
  id_function t = Ret (dep_function p) /\ id_instance t = Ret (dep_instance p).
Proof.
  intros name inst options s ps j p t Hi Ho M P T. pose proof (made_fits _ _ _ _ _ M) as F. pose proof (C78_contents _ _ _ _ _ Hi Ho M) as (_ & F2 & _).
  assert (E : problem_id (kind ps) p = Ok t).
  { clear - F2 P T. revert j P T. induction F2 as [|a b l l' H F2 IH]; intros [|j] P T; cbn in *; try discriminate; eauto. congruence. }
  destruct (fits_problem s p F (nth_error_In _ _ P)) as (A & B & C).
  apply (C79_numbers (kind ps) _ _ (dep_dimension p)); auto.
Qed.

(** ** C80: when a problem ends *)

(** No C problem is freed twice, and the freed ones are the finished objects. *)
Theorem C80_freed_once : forall name inst options s ps, small inst -> small options -> made_from name inst options s ps ->
  NoDup (freed ps) /\ forall h, In h (freed ps) <-> finished ps h.
Proof.
  intros name inst options s ps Hi Ho M. destruct (made_inv _ _ _ _ _ Hi Ho M) as (k & is & _ & P & I & Sz). apply (i_freed _ _ _ _ I).
Qed.

(** A problem that was asked for explicitly is valid until its own free or end. *)
Theorem C80_kept : forall name inst options s ps o h ps1 os, small inst -> small options -> made_from name inst options s ps ->
  perform ps o = (Ret (Some h), ps1) -> o <> Next -> Forall (fun o' => ~ ends h o') os -> valid (run ps1 os) h.
Proof.
  intros name inst options s ps o h ps1 os Hi Ho M E N Q. destruct (made_inv _ _ _ _ _ Hi Ho M) as (k & is & _ & P & I & Sz).
  destruct (returned_new k s is ps o h ps1 I E) as (V & Hh & [C|C]); [contradiction|].
  assert (I1 : inv k s is ps1) by (pose proof (perform_inv k s is ps o I) as X; rewrite E in X; exact X).
  assert (C1 : current ps1 <> Some h).
  { rewrite C. intros X. pose proof (i_current _ _ _ _ I h X). lia. }
  clear - I1 V C1 Q. revert ps1 I1 V C1. induction Q as [|o os Q1 Q2 IH]; intros ps1 I1 V C1; cbn; auto.
  destruct (keeps_valid k s is ps1 o h I1 V Q1 (or_introl C1)) as [A B]. apply IH; auto.
  apply perform_inv; auto.
Qed.

(** The problem of a loop is valid until the suite moves on (or its own free), and then it is not. *)
Theorem C80_current : forall name inst options s ps h ps1 os, small inst -> small options -> made_from name inst options s ps ->
  perform ps Next = (Ret (Some h), ps1) -> Forall (fun o => ~ moves o) os ->
  (Forall (fun o => ~ ends h o) os -> valid (run ps1 os) h) /\
  finished (snd (perform (run ps1 os) Reset)) h /\
  (Forall quiet os -> finished (snd (perform (run ps1 os) Next)) h).
Proof.
  intros name inst options s ps h ps1 os Hi Ho M E Mv. destruct (made_inv _ _ _ _ _ Hi Ho M) as (k & is & _ & P & I & Sz).
  destruct (returned_new k s is ps Next h ps1 I E) as (V & Hh & _).
  assert (I1 : inv k s is ps1) by (pose proof (perform_inv k s is ps Next I) as X; rewrite E in X; exact X).
  assert (C1 : current ps1 = Some h).
  { destruct (initialized ps) eqn:U.
    - destruct (next_step k s is ps _ I Sz U eq_refl) as (r & ps' & X & _ & _ & Y & _). cbn in E. congruence.
    - cbn in E. unfold next_problem in E. rewrite U in E. discriminate. }
  assert (C2 : current (run ps1 os) = Some h).
  { clear - Mv C1. revert ps1 C1. induction Mv as [|o os Q1 Q2 IH]; intros ps1 C1; cbn; auto. apply IH. clear IH.
    destruct o as [| |q|f d i|l|h'|h'|].
    - exfalso. apply Q1. left. reflexivity.
    - exfalso. apply Q1. right. reflexivity.
    - pose proof (quiet_keeps (Get q) ps1 Logic.I) as (_ & _ & _ & K & _). cbn zeta in K. congruence.
    - pose proof (quiet_keeps (ByNumbers f d i) ps1 Logic.I) as (_ & _ & _ & K & _). cbn zeta in K. congruence.
    - pose proof (quiet_keeps (Find l) ps1 Logic.I) as (_ & _ & _ & K & _). cbn zeta in K. congruence.
    - pose proof (quiet_keeps (FreeProblem h') ps1 Logic.I) as (_ & _ & _ & K & _). cbn zeta in K. congruence.
    - pose proof (quiet_keeps (Drop h') ps1 Logic.I) as (_ & _ & _ & K & _). cbn zeta in K. congruence.
    - exact C1. }
  pose proof (run_inv k s is os ps1 I1) as I2.
  assert (Fin : forall q, finished (free_current q) h -> forall p, objects p = objects (free_current q) -> finished p h).
  { intros q [x X] p Ep. exists x. congruence. }
  assert (FC : finished (free_current (run ps1 os)) h).
  { pose proof (i_current _ _ _ _ I2 h C2) as L. unfold finished. rewrite free_current_objects, C2, Nat.eqb_refl.
    destruct (nth_error (objects (run ps1 os)) h) as [o|] eqn:O; [|apply nth_error_None in O; lia]. cbn. eauto. }
  split; [|split].
  - intros Q. clear - I1 V Q Mv. revert ps1 I1 V. induction Q as [|o os Q1 Q2 IH]; intros ps1 I1 V; cbn; auto.
    inversion Mv as [|? ? M1 M2]; subst.
    destruct (keeps_valid k s is ps1 o h I1 V Q1 (or_intror M1)) as [A B]. apply IH; auto. apply perform_inv; auto.
  - cbn. exact FC.
  - intros Q. destruct (quiet_run os ps1 Q) as (_ & U2 & _). cbn zeta in U2.
    assert (U1 : initialized ps1 = true).
    { destruct (initialized ps) eqn:U.
      - destruct (next_step k s is ps _ I Sz U eq_refl) as (r & ps' & X & _ & Z & Y & _). cbn in E. congruence.
      - cbn in E. unfold next_problem in E. rewrite U in E. discriminate. }
    cbn [perform snd]. unfold next_problem. rewrite U2, U1. cbn [negb].
    destruct (_ <=? _); [exact FC|].
    match goal with |- context [problem_init ?q ?r] => destruct r as [[p|]| |] end; cbn; auto.
    destruct FC as [x X]. exists x. cbn. rewrite nth_error_app1; auto. apply nth_error_Some. congruence.
Qed.

(** A finished problem stays finished. *)
Theorem C80_stays_finished : forall name inst options s ps h os, small inst -> small options -> made_from name inst options s ps ->
  finished ps h -> finished (run ps os) h.
Proof.
  intros name inst options s ps h os Hi Ho M F.
  assert (G : forall o q, finished q h -> finished (snd (perform q o)) h).
  { intros o q H. assert (Fr : forall j, finished (free_problem q j) h).
    { intros j. destruct H as [x X]. exists x. rewrite free_problem_object, X. destruct (h =? j); reflexivity. }
    assert (FC : finished (free_current q) h) by (unfold free_current; destruct (current q); auto).
    assert (App : forall (q' : pysuite) l p, finished q' h -> objects q' ++ [mk_pobj p true] = l -> exists x, nth_error l h = Some (mk_pobj x false)).
    { intros q' l p [x X] <-. exists x. rewrite nth_error_app1; auto. apply nth_error_Some. congruence. }
    assert (Ge : forall k, finished (snd (get_problem q k)) h).
    { intros k. unfold get_problem. destruct (initialized q); cbn [negb]; [|exact H].
      destruct (match k with KInt z => Some z | KStr s0 => option_map Z.of_nat (position s0 (ids q) 0) end); [|exact H].
      destruct (list_index _ _); [|exact H].
      match goal with |- context [problem_init q ?r] => destruct r as [[p|]| |] end; cbn; auto. apply (App q _ p); [exact H|reflexivity]. }
    destruct o as [| |k|f d i|l|h'|h'|]; cbn [perform snd]; auto.
    - unfold next_problem. destruct (initialized q); cbn [negb]; [|exact H]. destruct (_ <=? _); [exact FC|].
      match goal with |- context [problem_init ?q1 ?r] => destruct r as [[p|]| |] end; cbn; auto. apply (App (free_current q) _ p); [exact FC|reflexivity].
    - unfold get_problem_by_function_dimension_instance.
      destruct (size_t f), (size_t d), (size_t i); auto. destruct (initialized q); cbn [negb]; [|exact H].
      match goal with |- context [problem_init q ?r] => destruct r as [[p|]| |] end; cbn; auto. apply (App q _ p); [exact H|reflexivity].
    - unfold find_problem. destruct (find_ids q l); auto.
    - destruct (current q) as [c|]; [destruct (c =? h')|]; auto. }
  clear M. revert ps F. induction os as [|o os IH]; intros ps F; cbn; auto.
Qed.

(** What the methods of a finished problem do: evaluations and recommendations raise an exception; ids and names are None;
    the initial solution and the numbers of evaluations end the process. *)
Theorem C80_methods : forall c m,
  match m with
  | MCall b | MRecommend b | MFeed b => exists e, on_freed c m = Raise e /\ (e = InvalidProblem \/ b = false)
  | MConstraint b => c = true -> exists e, on_freed c m = Raise e
  | MObserve | MTarget | MBest | MLargest => exists e, on_freed c m = Raise e
  | _ => True
  end.
Proof. intros c m. destruct m as [[]|[]|[]|[]| | | | | | | | | | | |]; cbn; eauto; intros ->; cbn; eauto. Qed.
Theorem C80_all_raise_refuted : exists m, on_freed false m = Dead /\ exists m', on_freed false m' = Ret tt.
Proof. exists MEvaluations. split; [reflexivity|]. exists MId. reflexivity. Qed.

(** ** Examples *)
Definition ex_inst : cstr := str "instances: 3,5,3".
Definition ex_options : cstr := str "function_indices: 2,24 dimensions: 3,20".
Definition ex_py : out pysuite := new_suite (str "bbob") ex_inst ex_options.
Example C78_example : exists ps s, ex_py = Ret ps /\ made_from (str "bbob") ex_inst ex_options s ps /\ usable ps /\ fits s /\
  small ex_inst /\ small ex_options /\
  map (fun p => (dep_dimension p, dep_function p, dep_instance p)) (all_problems s) =
    [(3, 2, 3); (3, 2, 5); (3, 2, 3); (3, 24, 3); (3, 24, 5); (3, 24, 3);
     (20, 2, 3); (20, 2, 5); (20, 2, 3); (20, 24, 3); (20, 24, 5); (20, 24, 3)]%N /\
  suite_dimensions ps = [3; 20]%N /\
  find_ids ps [str "f024"; str "d20"] = [str "bbob_f024_i03_d20"; str "bbob_f024_i05_d20"; str "bbob_f024_i03_d20"] /\
  (let ps' := run ps [Next; Next; Get (KInt (-1)); Next; FreeProblem 2; Get (KStr (str "bbob_f002_i05_d20"))] in
   map (fun o => (dep_dimension (o_problem o), dep_function (o_problem o), dep_instance (o_problem o), o_open o)) (objects ps') =
     [(3, 2, 3, false); (3, 2, 5, false); (20, 24, 3, false); (3, 2, 3, true); (20, 2, 5, true)]%N /\
   freed ps' = [0; 1; 2] /\ current_index ps' = Some 2 /\ current ps' = Some 3).
Proof.
  eexists. eexists. split; [vm_compute; reflexivity|].
  split. { exists desc_bbob. eexists. exists []. split; [vm_compute; reflexivity|]. split; [vm_compute; reflexivity|].
           split; [vm_compute; reflexivity|]. vm_compute. reflexivity. }
  split; [reflexivity|]. split. { split; [|split]; repeat constructor. }
  split; [vm_compute; discriminate|]. split; [vm_compute; discriminate|].
  split; [vm_compute; reflexivity|]. split; [vm_compute; reflexivity|]. split; [vm_compute; reflexivity|].
  vm_compute. repeat split.
Qed.
Example C79_example : id_function (str "bbob-biobj-mixint_f092_i15_d160") = Ret 92%N /\
  id_instance (str "bbob-biobj-mixint_f092_i15_d160") = Ret 15%N /\ id_function (str "bbob_noisy_f130_i01_d02") = Ret 130%N /\
  id_function (str "toy") = Raise ValueError.
Proof. vm_compute. repeat split. Qed.
Example C80_example : on_freed true (MConstraint true) = Raise InvalidProblem /\ on_freed false (MConstraint true) = Ret tt /\
  on_freed false (MCall false) = Raise ValueError.
Proof. repeat split. Qed.

Print Assumptions C78_creation.
Print Assumptions C78_fits.
Print Assumptions C78_contents.
Print Assumptions C78_by_index.
Print Assumptions C78_by_id.
Print Assumptions C78_own_id.
Print Assumptions C78_by_numbers.
Print Assumptions C78_ids.
Print Assumptions C78_iterate.
Print Assumptions C78_next.
Print Assumptions C78_after_free.
Print Assumptions C79_numbers.
Print Assumptions C79_suite.
Print Assumptions C80_freed_once.
Print Assumptions C80_kept.
Print Assumptions C80_current.
Print Assumptions C80_stays_finished.
Print Assumptions C80_methods.
Print Assumptions C80_all_raise_refuted.
