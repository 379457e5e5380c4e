(** Proofs about the Python suite. *)
From Coq Require Import List Arith NArith ZArith Ascii String Bool Lia Sorted.
From Verif Require Import CBase StrModel OptModel SuiteModel SuiteSpec SuiteProofs SuiteBuildProofs StrSpec OptSpec SuiteProps IdModel IdSpec IdProps PySuiteModel PySuiteSpec.
Import ListNotations.
Local Open Scope nat_scope.

(** ** The sweep *)
Lemma sweep_calls : forall l fuel s s', List.length l < fuel ->
  next_calls (S (List.length l)) s = Ok (map Some l ++ [None], s') -> sweep fuel s = Ok l.
Proof.
  induction l as [|p l IH]; intros fuel s s' L H; destruct fuel as [|m]; cbn in L; try lia; cbn in H |- *.
  - destruct (coco_suite_get_next_problem s) as [[q s1]| |]; cbn in H |- *; try discriminate.
    injection H as -> _. reflexivity.
  - destruct (coco_suite_get_next_problem s) as [[q s1]| |]; cbn in H |- *; try discriminate.
    destruct (next_calls (S (List.length l)) s1) as [[ps s2]| |] eqn:E.
    2,3: cbn in E; rewrite E in H; discriminate.
    cbn in E. rewrite E in H. cbn in H. injection H as -> -> <-.
    rewrite (IH m s1 s2) by (auto; lia). reflexivity.
Qed.

Lemma flat_map_le : forall {A B} (f : A -> list B) l n, (forall a, List.length (f a) <= n) ->
  List.length (flat_map f l) <= List.length l * n.
Proof.
  intros A B f l n H. induction l as [|a l IH]; cbn; [lia|]. rewrite app_length. specialize (H a). lia.
Qed.
Lemma positions_le : forall l, List.length (positions l) <= List.length l.
Proof.
  intros l. unfold positions, positions_from. rewrite Nat.sub_0_r.
  assert (G : forall (f : nat -> bool) m, List.length (filter f m) <= List.length m).
  { intros f. induction m as [|a m IH]; cbn; [lia|]. destruct (f a); cbn; lia. }
  eapply Nat.le_trans; [apply G|]. rewrite seq_length. lia.
Qed.
Lemma combinations_le : forall s, List.length (combinations s) <=
  List.length (functions s) * List.length (dimensions s) * List.length (instances s).
Proof.
  intros s. unfold combinations.
  pose proof (positions_le (functions s)). pose proof (positions_le (dimensions s)). pose proof (positions_le (instances s)).
  eapply Nat.le_trans.
  - apply flat_map_le with (n := List.length (functions s) * List.length (instances s)). intros d.
    eapply Nat.le_trans; [apply flat_map_le with (n := List.length (instances s))|].
    + intros f. rewrite map_length. auto.
    + apply Nat.mul_le_mono_r. auto.
  - rewrite (Nat.mul_comm (List.length (functions s)) (List.length (dimensions s))), <- Nat.mul_assoc.
    apply Nat.mul_le_mono_r. auto.
Qed.

Lemma built : forall name d inst options s, coco_suite_initialize name = Ok d -> small inst -> small options ->
  coco_suite d inst options = Ok (Some s) ->
  size_ok s /\ sweep (S (List.length (functions s) * List.length (dimensions s) * List.length (instances s))) s = Ok (all_problems s).
Proof.
  intros name d inst options s Hd Hi Ho E. pose proof (SuiteProps.C03_known_suites name d Hd) as D.
  destruct (SuiteProps.C03_iteration d inst options s D Hi Ho E) as (s' & H).
  split; [apply (coco_suite_built d inst options s D Hi Ho E)|].
  apply sweep_calls with (s' := s').
  - unfold all_problems. rewrite map_length. pose proof (combinations_le s). lia.
  - unfold all_problems. rewrite map_length. exact H.
Qed.

(** ** Direct access *)
Lemma get_at : forall s i, size_ok s -> i < List.length (all_problems s) ->
  exists p, nth_error (all_problems s) i = Some p /\
    coco_suite_get_problem s (nth i (map dep_index (all_problems s)) 0%N) = Ok (Some p).
Proof.
  intros s i Hs L. destruct (nth_error (all_problems s) i) as [p|] eqn:E.
  2:{ apply nth_error_None in E. lia. }
  exists p. split; auto.
  assert (E' : nth i (map dep_index (all_problems s)) 0%N = dep_index p).
  { apply nth_error_nth. rewrite nth_error_map, E. reflexivity. }
  rewrite E'. apply nth_error_In in E. unfold all_problems in E. apply in_map_iff in E. destruct E as [[[d f] j] [<- I]].
  pose proof (proj1 (combinations_In s d f j) I) as [(x & X1 & X2) [(y & Y1 & Y2) (z & Z1 & Z2)]].
  assert (d < List.length (dimensions s)) by (apply nth_error_Some; congruence).
  assert (f < List.length (functions s)) by (apply nth_error_Some; congruence).
  assert (j < List.length (instances s)) by (apply nth_error_Some; congruence).
  cbn [problem_at dep_index]. rewrite get_problem_in_range by auto. unfold problem_at.
  rewrite (nth_error_nth _ _ 0%N X1), (nth_error_nth _ _ 0%N Y1), (nth_error_nth _ _ 0%N Z1).
  rewrite (proj2 (N.eqb_neq _ _) X2), (proj2 (N.eqb_neq _ _) Y2), (proj2 (N.eqb_neq _ _) Z2). reflexivity.
Qed.

(** ** Ids *)
Lemma fits_problem : forall s p, fits s -> In p (all_problems s) ->
  (dep_function p < 2 ^ 64)%N /\ (dep_dimension p < 2 ^ 64)%N /\ (dep_instance p < 2 ^ 64)%N.
Proof.
  intros s p (F & D & I) H. apply in_map_iff in H. destruct H as [[[d f] j] [<- C]].
  apply combinations_In in C. destruct C as [(x & X1 & X2) [(y & Y1 & Y2) (z & Z1 & Z2)]]. cbn.
  rewrite (nth_error_nth _ _ 0%N X1), (nth_error_nth _ _ 0%N Y1), (nth_error_nth _ _ 0%N Z1).
  rewrite Forall_forall in F, D, I. apply nth_error_In in X1, Y1, Z1. auto.
Qed.
Lemma problem_id_ok : forall k s p, fits s -> In p (all_problems s) -> exists t, problem_id k p = Ok t.
Proof.
  intros k s p H I. destruct (fits_problem s p H I) as (A & B & C).
  destruct (C41_suite_ids k (dep_function p) (dep_instance p) (dep_dimension p) A C B) as (n & a & b & c & t & _ & E & _).
  exists t. exact E.
Qed.
Lemma problem_ids_map : forall k l is, problem_ids k l = Ok is -> Forall2 (fun p t => problem_id k p = Ok t) l is.
Proof.
  intros k. induction l as [|p l IH]; intros is H; cbn in H.
  - injection H as <-. constructor.
  - destruct (problem_id k p) as [t| |] eqn:E; cbn in H; try discriminate.
    destruct (problem_ids k l) as [r| |]; cbn in H; try discriminate. injection H as <-. constructor; auto.
Qed.
Lemma problem_ids_ok : forall k l, (forall p, In p l -> exists t, problem_id k p = Ok t) -> exists is, problem_ids k l = Ok is.
Proof.
  intros k. induction l as [|p l IH]; intros H; cbn; eauto.
  destruct (H p (or_introl eq_refl)) as [t E]. rewrite E. cbn.
  destruct IH as [r R]; [intros q Q; apply H; right; auto|]. rewrite R. cbn. eauto.
Qed.

(** ** The invariant *)
Record inv (k : suite_id) (s : suite) (is : list cstr) (ps : pysuite) : Prop := {
  i_kind : kind ps = k;
  i_indices : indices ps = map dep_index (all_problems s);
  i_ids : ids ps = is;
  i_dims : problem_dimensions ps = map dep_dimension (all_problems s);
  i_suite : initialized ps = true -> c_suite ps = Some s;
  i_current : forall h, current ps = Some h -> h < List.length (objects ps);
  i_freed : NoDup (freed ps) /\ forall h, In h (freed ps) <-> finished ps h
}.

Lemma close_nth : forall l h j, nth_error (close l h) j =
  if j =? h then option_map (fun o => mk_pobj (o_problem o) false) (nth_error l j) else nth_error l j.
Proof.
  induction l as [|o l IH]; intros h j.
  - destruct h, j; cbn; try destruct (_ =? _); reflexivity.
  - destruct h, j; cbn; auto.
Qed.
Lemma close_length : forall l h, List.length (close l h) = List.length l.
Proof. induction l as [|o l IH]; intros [|h]; cbn; auto. Qed.

Lemma free_problem_rest : forall ps h, let ps' := free_problem ps h in
  c_suite ps' = c_suite ps /\ kind ps' = kind ps /\ indices ps' = indices ps /\ ids ps' = ids ps /\
  problem_dimensions ps' = problem_dimensions ps /\ current_index ps' = current_index ps /\ current ps' = current ps /\
  initialized ps' = initialized ps /\ List.length (objects ps') = List.length (objects ps).
Proof.
  intros ps h. unfold free_problem. destruct (nth_error (objects ps) h) as [o|]; cbn; [|repeat split].
  destruct (o_open o); cbn; repeat split. apply close_length.
Qed.
Lemma free_problem_object : forall ps h j, nth_error (objects (free_problem ps h)) j =
  if j =? h then option_map (fun o => mk_pobj (o_problem o) false) (nth_error (objects ps) j) else nth_error (objects ps) j.
Proof.
  intros ps h j. unfold free_problem. destruct (nth_error (objects ps) h) as [o|] eqn:E.
  - destruct (o_open o) eqn:O; cbn; [apply close_nth|]. destruct (Nat.eqb_spec j h) as [->|]; auto.
    rewrite E. cbn. destruct o as [p b]; cbn in *. subst b. reflexivity.
  - destruct (Nat.eqb_spec j h) as [->|]; auto. rewrite E. reflexivity.
Qed.

Lemma free_problem_inv : forall k s is ps h, inv k s is ps -> inv k s is (free_problem ps h).
Proof.
  intros k s is ps h I. destruct (free_problem_rest ps h) as (A & B & C & D & E & F & G & H & L).
  destruct I as [J1 J2 J3 J4 J5 J6 [J7 J8]].
  constructor; rewrite ?A, ?B, ?C, ?D, ?E, ?G, ?H, ?L; auto.
  unfold free_problem. destruct (nth_error (objects ps) h) as [o|] eqn:N; [|split; auto].
  destruct (o_open o) eqn:O; [|split; auto]. cbn. split.
  - apply NoDup_Add with (a := h) (l := freed ps).
    + pose proof (Add_app h (freed ps) []) as AA. rewrite app_nil_r in AA. exact AA.
    + split; auto. rewrite J8. intros [p P]. rewrite N in P. injection P as ->. discriminate.
  - intros j. rewrite in_app_iff, J8. unfold finished, set_objects. cbn [objects]. rewrite close_nth.
    destruct (Nat.eqb_spec j h) as [->|Ne].
    + rewrite N. cbn. split; [eauto|]. intros _. right. left. reflexivity.
    + split; [intros [X|[X|[]]]; auto; congruence|auto].
Qed.
Lemma free_current_inv : forall k s is ps, inv k s is ps -> inv k s is (free_current ps).
Proof. intros k s is ps I. unfold free_current. destruct (current ps); auto. apply free_problem_inv; auto. Qed.
Lemma free_current_rest : forall ps, let ps' := free_current ps in
  c_suite ps' = c_suite ps /\ kind ps' = kind ps /\ indices ps' = indices ps /\ ids ps' = ids ps /\
  problem_dimensions ps' = problem_dimensions ps /\ current_index ps' = current_index ps /\ current ps' = current ps /\
  initialized ps' = initialized ps /\ List.length (objects ps') = List.length (objects ps).
Proof. intros ps. unfold free_current. destruct (current ps) eqn:E; [pose proof (free_problem_rest ps n) as H; cbn in H |- *; rewrite <- E at 1; exact H|cbn; repeat split; auto]. Qed.
Lemma free_current_objects : forall ps j, nth_error (objects (free_current ps)) j =
  match current ps with
  | Some h => if j =? h then option_map (fun o => mk_pobj (o_problem o) false) (nth_error (objects ps) j) else nth_error (objects ps) j
  | None => nth_error (objects ps) j
  end.
Proof. intros ps j. unfold free_current. destruct (current ps); auto. apply free_problem_object. Qed.

Lemma set_cursor_inv : forall k s is ps i c, inv k s is ps -> (forall h, c = Some h -> h < List.length (objects ps)) ->
  inv k s is (set_cursor ps i c).
Proof. intros k s is ps i c [J1 J2 J3 J4 J5 J6 J7] H. constructor; cbn; auto. Qed.
Lemma reset_inv : forall k s is ps, inv k s is ps -> inv k s is (reset ps).
Proof. intros. unfold reset. apply set_cursor_inv; [apply free_current_inv; auto|discriminate]. Qed.

Lemma new_object_inv : forall k s is ps p, inv k s is ps -> inv k s is (set_objects ps (objects ps ++ [mk_pobj p true]) (freed ps)).
Proof.
  intros k s is ps p [J1 J2 J3 J4 J5 J6 [J7 J8]]. constructor; cbn; auto.
  - intros h H. rewrite app_length. specialize (J6 h H). lia.
  - split; auto. intros h. rewrite J8. unfold finished. cbn. split; intros [q Q]; exists q.
    + rewrite nth_error_app1; auto. apply nth_error_Some. congruence.
    + destruct (Nat.lt_ge_cases h (List.length (objects ps))) as [L|L]; [rewrite nth_error_app1 in Q; auto|].
      rewrite nth_error_app2 in Q by auto. destruct (h - List.length (objects ps)) as [|m]; cbn in Q; [discriminate|].
      destruct m; discriminate.
Qed.
Lemma problem_init_inv : forall k s is ps r, inv k s is ps -> inv k s is (snd (problem_init ps r)).
Proof. intros k s is ps [[p|]| |] I; cbn; auto. apply new_object_inv; auto. Qed.

Lemma get_problem_inv : forall k s is ps q, inv k s is ps -> inv k s is (snd (get_problem ps q)).
Proof.
  intros k s is ps q I. unfold get_problem. destruct (initialized ps); cbn [negb]; [|exact I].
  destruct (match q with KInt z => Some z | KStr s0 => option_map Z.of_nat (position s0 (ids ps) 0) end); [|exact I].
  destruct (list_index _ _); [|exact I].
  match goal with |- context [problem_init ps ?r] => pose proof (problem_init_inv k s is ps r I) as H; destruct (problem_init ps r) end.
  exact H.
Qed.
Lemma next_problem_inv : forall k s is ps, inv k s is ps -> inv k s is (snd (next_problem ps)).
Proof.
  intros k s is ps I. unfold next_problem. destruct (initialized ps); cbn [negb]; [|exact I].
  destruct (_ <=? _).
  - cbn. apply set_cursor_inv; [apply free_current_inv; auto|discriminate].
  - assert (I1 : forall i, inv k s is (set_cursor (free_current ps) i (current (free_current ps)))).
    { intros i. apply set_cursor_inv; [apply free_current_inv; auto|]. intros h H.
      apply (i_current _ _ _ _ (free_current_inv _ _ _ _ I)); auto. }
    match goal with |- context [problem_init ?ps1 ?r] =>
      pose proof (problem_init_inv k s is ps1 r (I1 _)) as H; destruct (problem_init ps1 r) as [o ps2] eqn:E end.
    destruct o as [h| |]; [|exact H|exact H]. cbn [snd] in *. apply set_cursor_inv; auto. intros h' [= <-].
    unfold problem_init in E.
    match type of E with match ?r with _ => _ end = _ => destruct r as [[p|]| |] end; try discriminate.
    injection E as <- <-. cbn. rewrite app_length. cbn. lia.
Qed.
Lemma perform_inv : forall k s is ps o, inv k s is ps -> inv k s is (snd (perform ps o)).
Proof.
  intros k s is ps o I. destruct o as [| |q|f d i|l|h|h|]; cbn [perform snd].
  - apply next_problem_inv; auto.
  - apply reset_inv; auto.
  - apply get_problem_inv; auto.
  - unfold get_problem_by_function_dimension_instance.
    destruct (size_t f), (size_t d), (size_t i); try exact I. destruct (initialized ps); cbn [negb]; [|exact I].
    match goal with |- context [problem_init ps ?r] => pose proof (problem_init_inv k s is ps r I) as H; destruct (problem_init ps r) end.
    exact H.
  - unfold find_problem. destruct (find_ids ps l); [exact I|]. apply get_problem_inv; auto.
  - apply free_problem_inv; auto.
  - destruct (current ps) as [c|]; [destruct (c =? h); auto|]; apply free_problem_inv; auto.
  - destruct I as [J1 J2 J3 J4 J5 J6 [J7 J8]]. constructor; cbn; auto. discriminate.
Qed.
Lemma run_inv : forall k s is os ps, inv k s is ps -> inv k s is (run ps os).
Proof. intros k s is. induction os as [|o os IH]; intros ps I; cbn; auto. apply IH. apply perform_inv. auto. Qed.

Lemma new_suite_inv : forall name inst options d s ps, small inst -> small options ->
  coco_suite_initialize name = Ok d -> coco_suite d inst options = Ok (Some s) -> new_suite name inst options = Ret ps ->
  exists k is, lookup name known_suite_names = Some k /\ problem_ids k (all_problems s) = Ok is /\
    inv k s is ps /\ initialized ps = true /\ current ps = None /\ current_index ps = None /\ objects ps = [] /\ size_ok s.
Proof.
  intros name inst options d s ps Hi Ho Hd E H. unfold new_suite in H.
  destruct (lookup name known_suite_names) as [k|]; [|discriminate].
  destruct (built name d inst options s Hd Hi Ho E) as [Sz Sw].
  rewrite Hd, E, Sw in H.
  destruct (problem_ids k (all_problems s)) as [is| |] eqn:P; try discriminate.
  injection H as <-. exists k, is. split; auto. split; auto. split; [|auto 10].
  constructor; cbn; auto; [discriminate|]. split; [constructor|]. intros h. split; [contradiction|].
  intros [p Q]. destruct h; discriminate.
Qed.
Lemma made_inv : forall name inst options s ps, small inst -> small options -> made_from name inst options s ps ->
  exists k is, lookup name known_suite_names = Some k /\ problem_ids k (all_problems s) = Ok is /\ inv k s is ps /\ size_ok s.
Proof.
  intros name inst options s ps Hi Ho (d & ps0 & os & Hd & E & H & ->).
  destruct (new_suite_inv name inst options d s ps0 Hi Ho Hd E H) as (k & is & L & P & I & _ & _ & _ & _ & Sz).
  exists k, is. split; auto. split; auto. split; auto. apply run_inv; auto.
Qed.
