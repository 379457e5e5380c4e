(** Proofs about the Python suite: look-up, iteration, life time of problems, numbers in ids. *)
From Coq Require Import List Arith NArith ZArith Ascii String Bool Lia Sorted.
From Verif Require Import CBase StrModel StrProofs OptModel SuiteModel SuiteSpec SuiteProofs SuiteBuildProofs SuiteProps IdModel IdSpec IdProofs IdProps PySuiteModel PySuiteSpec PySuiteProofs.
Import ListNotations.
Local Open Scope nat_scope.

(** ** Look-up *)
Lemma list_index_spec : forall (l : list problem) z,
  match list_index (List.length l) z with
  | Some k => exists p, nth_error l k = Some p /\ at_index l z p
  | None => forall p, ~ at_index l z p
  end.
Proof.
  intros l z. unfold list_index. destruct (Z.leb_spec 0 z) as [P|P].
  - destruct (Nat.ltb_spec (Z.to_nat z) (List.length l)) as [L|L].
    + destruct (nth_error l (Z.to_nat z)) as [p|] eqn:E; [|apply nth_error_None in E; lia].
      exists p. split; auto. exists (Z.to_nat z). split; auto. left. lia.
    + intros p (k & K & H). assert (k < List.length l) by (apply nth_error_Some; congruence). lia.
  - destruct (Z.leb_spec (- Z.of_nat (List.length l)) z) as [L|L].
    + destruct (nth_error l (Z.to_nat (Z.of_nat (List.length l) + z))) as [p|] eqn:E; [|apply nth_error_None in E; lia].
      exists p. split; auto. exists (Z.to_nat (Z.of_nat (List.length l) + z)). split; auto. right. lia.
    + intros p (k & K & H). assert (k < List.length l) by (apply nth_error_Some; congruence). lia.
Qed.
Lemma at_index_unique : forall l z p q, at_index l z p -> at_index l z q -> p = q.
Proof.
  intros l z p q (j & J & A) (k & K & B).
  assert (j < List.length l) by (apply nth_error_Some; congruence).
  assert (k < List.length l) by (apply nth_error_Some; congruence).
  assert (j = k) by lia. subst. congruence.
Qed.

Lemma position_spec : forall x l i,
  match position x l i with
  | Some k => i <= k /\ nth_error l (k - i) = Some x /\ forall j, j < k - i -> nth_error l j <> Some x
  | None => ~ In x l
  end.
Proof.
  intros x. induction l as [|y l IH]; intros i; cbn [position]; [intros []|].
  destruct (streq x y) eqn:E.
  - apply streq_spec in E. subst y. rewrite Nat.sub_diag. split; auto. split; auto. intros j J. lia.
  - assert (Ne : x <> y). { intros ->. pose proof (proj2 (streq_spec y y) eq_refl). congruence. }
    specialize (IH (S i)). destruct (position x l (S i)) as [k|].
    + destruct IH as (A & B & C). split; [lia|]. replace (k - i) with (S (k - S i)) by lia. split; auto.
      intros [|j] J; cbn; [congruence|]. apply C. lia.
    + intros [X|X]; auto.
Qed.

Lemma problem_init_ok : forall ps p, returns_problem ps (problem_init ps (Ok (Some p))) p.
Proof.
  intros ps p. eexists. eexists. split; [reflexivity|]. split.
  - apply nth_error_None. auto.
  - cbn. rewrite nth_error_app2 by auto. rewrite Nat.sub_diag. reflexivity.
Qed.

Section Look.
Variables (k : suite_id) (s : suite) (is : list cstr) (ps : pysuite).
Hypothesis I : inv k s is ps.
Hypothesis Sz : size_ok s.
Hypothesis Ids : problem_ids k (all_problems s) = Ok is.
Hypothesis U : initialized ps = true.

Lemma look_index : forall z,
  (forall p, at_index (all_problems s) z p -> returns_problem ps (get_problem ps (KInt z)) p) /\
  ((forall p, ~ at_index (all_problems s) z p) -> get_problem ps (KInt z) = (Raise NoSuchProblem, ps)).
Proof.
  intros z. unfold get_problem. rewrite U. cbn [negb]. rewrite (i_indices _ _ _ _ I), map_length.
  pose proof (list_index_spec (all_problems s) z) as L. destruct (list_index (List.length (all_problems s)) z) as [j|].
  - destruct L as (p & P & A). split.
    + intros q Q. pose proof (at_index_unique _ _ _ _ Q A). subst q.
      destruct (get_at s j Sz) as (p' & P' & G). { apply nth_error_Some. congruence. }
      unfold with_suite. rewrite (i_suite _ _ _ _ I U), G. assert (p' = p) by congruence. subst p'.
      destruct (problem_init_ok ps p) as (h & ps' & E & X). rewrite E. exists h, ps'. auto.
    + intros N. destruct (N p A).
  - split; [intros p A; destruct (L p A)|reflexivity].
Qed.

Lemma ids_nth : forall j, match nth_error (all_problems s) j with
  | Some p => exists t, nth_error is j = Some t /\ problem_id k p = Ok t
  | None => nth_error is j = None
  end.
Proof.
  pose proof (problem_ids_map _ _ _ Ids) as F. clear Ids I. induction F as [|p t l is' E F IH]; intros [|j]; cbn; auto.
  - exists t. auto.
  - apply IH.
Qed.

Lemma look_id : forall t,
  (forall p, first_with (fun q => problem_id k q = Ok t) (all_problems s) p -> returns_problem ps (get_problem ps (KStr t)) p) /\
  ((forall p, In p (all_problems s) -> problem_id k p <> Ok t) -> get_problem ps (KStr t) = (Raise ValueError, ps)).
Proof.
  intros t. pose proof (position_spec t is 0) as P. split.
  - intros p (l1 & l2 & E & A & B).
    assert (N : nth_error (all_problems s) (List.length l1) = Some p).
    { rewrite E, nth_error_app2, Nat.sub_diag by auto. reflexivity. }
    assert (J : position t is 0 = Some (List.length l1)).
    { pose proof (ids_nth (List.length l1)) as Q. rewrite N in Q. destruct Q as (t' & Q1 & Q2).
      assert (t' = t) by congruence. subst t'.
      destruct (position t is 0) as [j|].
      - destruct P as (_ & P1 & P2). rewrite Nat.sub_0_r in *. f_equal.
        destruct (Nat.lt_trichotomy j (List.length l1)) as [L|[L|L]]; auto.
        + pose proof (ids_nth j) as R. destruct (nth_error (all_problems s) j) as [q|] eqn:Nq; [|congruence].
          destruct R as (t' & R1 & R2). assert (t' = t) by congruence. subst t'.
          rewrite E, nth_error_app1 in Nq by auto. apply nth_error_In in Nq. rewrite Forall_forall in B.
          destruct (B q Nq R2).
        + destruct (P2 (List.length l1) L Q1).
      - apply nth_error_In in Q1. contradiction. }
    destruct (look_index (Z.of_nat (List.length l1))) as [L _].
    specialize (L p ltac:(exists (List.length l1); auto)).
    unfold get_problem in *. rewrite (i_ids _ _ _ _ I), J. exact L.
  - intros N. unfold get_problem. rewrite U, (i_ids _ _ _ _ I). cbn [negb].
    destruct (position t is 0) as [j|]; [|reflexivity].
    destruct P as (_ & P1 & _). rewrite Nat.sub_0_r in P1. pose proof (ids_nth j) as Q.
    destruct (nth_error (all_problems s) j) as [p|] eqn:E; [|congruence]. destruct Q as (t' & Q1 & Q2).
    apply nth_error_In in E. destruct (N p E). congruence.
Qed.

Definition has_numbers (f d i : N) (p : problem) : Prop := dep_function p = f /\ dep_dimension p = d /\ dep_instance p = i.

Lemma look_numbers_c : forall f d i,
  (forall p, first_with (has_numbers f d i) (all_problems s) p -> get_problem_by_numbers s f d i = Ok (Some p)) /\
  ((forall p, In p (all_problems s) -> ~ has_numbers f d i p) -> get_problem_by_numbers s f d i = Ok None).
Proof.
  intros f d i. split.
  - intros p (l1 & l2 & E & A & B). unfold all_problems in E. apply map_eq_app in E. destruct E as (c1 & c2' & EC & M1 & M2).
    destruct c2' as [|c c2]; [discriminate|]. cbn in M2. injection M2 as <- <-. subst l1.
    assert (C : In c (combinations s)) by (rewrite EC, in_app_iff; right; left; reflexivity).
    destruct c as [[dp fp] ip]. pose proof (proj1 (combinations_In s dp fp ip) C) as [(x & X1 & X2) [(y & Y1 & Y2) (z & Z1 & Z2)]].
    destruct A as (A1 & A2 & A3). cbn in A1, A2, A3.
    rewrite (nth_error_nth _ _ 0%N Y1) in A1. rewrite (nth_error_nth _ _ 0%N X1) in A2. rewrite (nth_error_nth _ _ 0%N Z1) in A3.
    subst x y z.
    destruct (first_position_exists (functions s) f (nth_error_In _ _ Y1)) as (fk & Hf).
    destruct (first_position_exists (dimensions s) d (nth_error_In _ _ X1)) as (dk & Hd).
    destruct (first_position_exists (instances s) i (nth_error_In _ _ Z1)) as (ik & Hi).
    destruct (by_numbers_found s f d i fk dk ik Sz Y2 X2 Z2 Hf Hd Hi) as (G & G1 & G2 & G3).
    rewrite G. f_equal. f_equal.
    assert (LD : dk <= dp). { apply Nat.le_ngt. intros L. apply (proj2 Hd dp L X1). }
    assert (LF : fk <= fp). { apply Nat.le_ngt. intros L. apply (proj2 Hf fp L Y1). }
    assert (LI : ik <= ip). { apply Nat.le_ngt. intros L. apply (proj2 Hi ip L Z1). }
    assert (C0 : In (dk, fk, ik) (combinations s)).
    { apply combinations_In. split; [|split]; eexists; split; try apply Hd; try apply Hf; try apply Hi; auto. }
    pose proof (combinations_sorted s) as SS. rewrite EC in C0, SS. apply in_app_iff in C0. destruct C0 as [C0|[C0|C0]].
    + exfalso. rewrite Forall_forall in B. apply (B (problem_at s (dk, fk, ik))).
      * apply in_map. exact C0.
      * split; [|split]; auto.
    + injection C0 as -> -> ->. reflexivity.
    + exfalso. assert (R : StronglySorted lexlt ((dp, fp, ip) :: c2)).
      { clear - SS. induction c1 as [|a c1 IH]; auto. apply IH. inversion SS; auto. }
      inversion R as [|? ? _ FA]; subst. rewrite Forall_forall in FA. specialize (FA _ C0). cbn in FA. lia.
  - intros N. apply by_numbers_missing; auto.
    destruct (N.eq_dec f 0) as [|F0]; [auto|]. destruct (N.eq_dec d 0) as [|D0]; [auto|]. destruct (N.eq_dec i 0) as [|I0]; [auto|].
    destruct (in_dec N.eq_dec f (functions s)) as [Hf|]; [|auto].
    destruct (in_dec N.eq_dec d (dimensions s)) as [Hd|]; [|auto 6].
    destruct (in_dec N.eq_dec i (instances s)) as [Hi|]; [|auto 8].
    exfalso. apply In_nth_error in Hf, Hd, Hi. destruct Hf as [fp Hf], Hd as [dp Hd], Hi as [ip Hi].
    apply (N (problem_at s (dp, fp, ip))).
    + apply in_map. apply combinations_In. split; [|split]; eauto.
    + split; [|split]; cbn; apply nth_error_nth; auto.
Qed.

Lemma look_numbers : forall f d i,
  (forall p, first_with (fun q => Z.of_N (dep_function q) = f /\ Z.of_N (dep_dimension q) = d /\ Z.of_N (dep_instance q) = i)
               (all_problems s) p -> (f < 2 ^ 64)%Z -> (d < 2 ^ 64)%Z -> (i < 2 ^ 64)%Z ->
     returns_problem ps (get_problem_by_function_dimension_instance ps f d i) p) /\
  ((0 <= f < 2 ^ 64)%Z -> (0 <= d < 2 ^ 64)%Z -> (0 <= i < 2 ^ 64)%Z ->
   (forall p, In p (all_problems s) ->
      ~ (Z.of_N (dep_function p) = f /\ Z.of_N (dep_dimension p) = d /\ Z.of_N (dep_instance p) = i)) ->
     get_problem_by_function_dimension_instance ps f d i = (Raise NoSuchProblem, ps)).
Proof.
  assert (St : forall z, (0 <= z < 2 ^ 64)%Z -> size_t z = Some (Z.to_N z)).
  { intros z [A B]. unfold size_t. rewrite (proj2 (Z.leb_le _ _) A), (proj2 (Z.ltb_lt _ _) B). reflexivity. }
  intros f d i. unfold get_problem_by_function_dimension_instance. split.
  - intros p (l1 & l2 & E & (A1 & A2 & A3) & B) Lf Ld Li. rewrite (St f), (St d), (St i) by lia. rewrite U. cbn [negb].
    unfold with_suite. rewrite (i_suite _ _ _ _ I U).
    destruct (look_numbers_c (Z.to_N f) (Z.to_N d) (Z.to_N i)) as [L _]. rewrite (L p).
    + destruct (problem_init_ok ps p) as (h & ps' & X & Y). rewrite X. exists h, ps'. auto.
    + exists l1, l2. split; auto. split; [split; [|split]; lia|]. rewrite Forall_forall in *. intros q Q (Q1 & Q2 & Q3).
      apply (B q Q). rewrite Q1, Q2, Q3, !Z2N.id by lia. auto.
  - intros Lf Ld Li N. rewrite (St f), (St d), (St i) by lia. rewrite U. cbn [negb].
    unfold with_suite. rewrite (i_suite _ _ _ _ I U).
    destruct (look_numbers_c (Z.to_N f) (Z.to_N d) (Z.to_N i)) as [_ L]. rewrite L; [reflexivity|].
    intros p P (P1 & P2 & P3). apply (N p P). rewrite P1, P2, P3, !Z2N.id by lia. auto.
Qed.
End Look.

Lemma contains_spec : forall s t, contains s t = true <-> part_of t s.
Proof.
  induction s as [|c s IH]; intros t.
  - cbn. rewrite orb_false_r, is_prefix_spec. split.
    + intros [q E]. exists [], q. exact E.
    + intros (a & b & E). symmetry in E. apply app_eq_nil in E. destruct E as [_ E]. exists b. auto.
  - cbn [contains]. rewrite orb_true_iff, is_prefix_spec, IH. split.
    + intros [[q E]|(a & b & E)]; [exists [], q; exact E|]. exists (c :: a), b. rewrite E. reflexivity.
    + intros ([|x a] & b & E); [left; exists b; exact E|]. injection E as -> E. right. exists a, b. exact E.
Qed.

(** ** Iteration *)
Lemma quiet_keeps : forall o ps, quiet o -> let ps' := snd (perform ps o) in
  c_suite ps' = c_suite ps /\ initialized ps' = initialized ps /\ current_index ps' = current_index ps /\
  current ps' = current ps /\ indices ps' = indices ps /\ ids ps' = ids ps.
Proof.
  assert (G : forall ps q, let ps' := snd (get_problem ps q) in
     c_suite ps' = c_suite ps /\ initialized ps' = initialized ps /\ current_index ps' = current_index ps /\
     current ps' = current ps /\ indices ps' = indices ps /\ ids ps' = ids ps).
  { intros ps q. unfold get_problem. destruct (initialized ps) eqn:U; cbn [negb]; [|cbn; auto 10].
    destruct (match q with KInt z => Some z | KStr s0 => option_map Z.of_nat (position s0 (ids ps) 0) end); [|cbn; auto 10].
    destruct (list_index _ _); [|cbn; auto 10].
    match goal with |- context [problem_init ps ?r] => destruct r as [[p|]| |] end; cbn; auto 10. }
  assert (F : forall ps h, let ps' := free_problem ps h in
     c_suite ps' = c_suite ps /\ initialized ps' = initialized ps /\ current_index ps' = current_index ps /\
     current ps' = current ps /\ indices ps' = indices ps /\ ids ps' = ids ps).
  { intros ps h. destruct (free_problem_rest ps h) as (A & B & C & D & E & X & Y & Z & W). cbn. auto 10. }
  intros o ps Q. destruct o as [| |q|f d i|l|h|h|]; cbn [quiet] in Q; try contradiction; cbn [perform snd].
  - apply G.
  - unfold get_problem_by_function_dimension_instance.
    destruct (size_t f), (size_t d), (size_t i); try (cbn; auto 10; fail).
    destruct (initialized ps) eqn:U; cbn [negb]; [|cbn; auto 10].
    match goal with |- context [problem_init ps ?r] => destruct r as [[p|]| |] end; cbn; auto 10.
  - unfold find_problem. destruct (find_ids ps l); [cbn; auto 10|]. apply G.
  - apply F.
  - destruct (current ps) as [c|] eqn:C; [destruct (c =? h)|]; try (rewrite <- C; apply F). cbn. auto 10.
Qed.
Lemma quiet_run : forall os ps, Forall quiet os -> let ps' := run ps os in
  c_suite ps' = c_suite ps /\ initialized ps' = initialized ps /\ current_index ps' = current_index ps /\
  current ps' = current ps /\ indices ps' = indices ps /\ ids ps' = ids ps.
Proof.
  induction os as [|o os IH]; intros ps Q; cbn; [auto 10|]. inversion Q as [|? ? Q1 Q2]; subst.
  destruct (quiet_keeps o ps Q1) as (A & B & C & D & E & F). destruct (IH (snd (perform ps o)) Q2) as (A' & B' & C' & D' & E' & F').
  cbn in *. repeat split; congruence.
Qed.

Lemma next_step : forall k s is ps i, inv k s is ps -> size_ok s -> initialized ps = true ->
  i = match current_index ps with None => 0 | Some j => j + 1 end ->
  exists r ps', next_problem ps = (Ret r, ps') /\ current_index ps' = Some i /\ initialized ps' = true /\ current ps' = r /\
    match nth_error (all_problems s) i with
    | Some p => exists h, r = Some h /\ nth_error (objects ps) h = None /\ nth_error (objects ps') h = Some (mk_pobj p true)
    | None => r = None
    end.
Proof.
  intros k s is ps i I Sz U Ei. unfold next_problem. rewrite U. cbn [negb]. rewrite <- Ei.
  rewrite (i_indices _ _ _ _ I), map_length.
  destruct (free_current_rest ps) as (A & B & C & D & E & F & G & H & L).
  destruct (Nat.leb_spec (List.length (all_problems s)) i) as [X|X].
  - exists None. eexists. split; [reflexivity|]. cbn. rewrite H. split; auto. split; auto. split; auto.
    rewrite (proj2 (nth_error_None _ _) X). reflexivity.
  - destruct (get_at s i Sz X) as (p & P & Q). unfold with_suite. rewrite A, (i_suite _ _ _ _ I U), Q, P.
    cbn [problem_init]. eexists. eexists. split; [reflexivity|]. cbn. rewrite H. split; auto. split; auto. split; auto.
    eexists. split; [reflexivity|]. rewrite L. split; [apply nth_error_None; auto|].
    rewrite nth_error_app2, L, Nat.sub_diag by (rewrite L; auto). reflexivity.
Qed.

Lemma firstn_padded : forall m (u : list (out (option problem))),
  firstn m (u ++ repeat (Ret None) m) = firstn m (u ++ repeat (Ret None) (S m)).
Proof.
  induction m as [|m IHm]; intros u; auto. destruct u as [|x u].
  - cbn. f_equal. apply (IHm []).
  - cbn [app firstn]. f_equal.
    assert (E : forall n, u ++ repeat (Ret None) (S n) = (u ++ [Ret None]) ++ repeat (Ret None) n).
    { intros n. rewrite <- app_assoc. reflexivity. }
    rewrite (E m), (E (S m)). apply IHm.
Qed.

Lemma rounds_spec : forall k s is body, (forall j h, Forall quiet (body j h)) -> size_ok s ->
  forall n j i ps, inv k s is ps -> initialized ps = true ->
  i = match current_index ps with None => 0 | Some j => j + 1 end ->
  fst (rounds n j body ps) = firstn n (map (fun p => Ret (Some p)) (skipn i (all_problems s)) ++ repeat (Ret None) n) /\
  inv k s is (snd (rounds n j body ps)) /\ initialized (snd (rounds n j body ps)) = true.
Proof.
  intros k s is body Q Sz. induction n as [|n IH]; intros j i ps I U Ei; [cbn; auto|].
  cbn [rounds]. destruct (next_step k s is ps i I Sz U Ei) as (r & ps1 & N & Ci & U1 & Cu & R).
  pose proof (next_problem_inv k s is ps I) as I1. rewrite N in *. cbn [snd] in I1.
  destruct (nth_error (all_problems s) i) as [p|] eqn:P.
  - destruct R as (h & -> & O0 & O1).
    destruct (quiet_run (body j h) ps1 (Q j h)) as (_ & B1 & B2 & _).
    destruct (IH (S j) (i + 1) (run ps1 (body j h))) as (X & Y & Z).
    { apply run_inv; auto. } { rewrite B1. auto. } { rewrite B2, Ci. reflexivity. }
    destruct (rounds n (S j) body (run ps1 (body j h))) as [l ps2]. cbn [fst snd] in *.
    split; [|auto]. rewrite O1. cbn [o_open o_problem]. rewrite X.
    assert (SK : skipn i (all_problems s) = p :: skipn (i + 1) (all_problems s)).
    { clear - P. revert i P. induction (all_problems s) as [|q l IH]; intros [|i] P; cbn in *; try discriminate.
      - injection P as ->. reflexivity.
      - apply IH. exact P. }
    rewrite SK. cbn [map app firstn]. f_equal. apply firstn_padded.
  - rewrite R. assert (SK : skipn i (all_problems s) = []) by (apply skipn_all2; apply nth_error_None; auto).
    destruct (IH (S j) (i + 1) ps1) as (X & Y & Z); [auto|auto|rewrite Ci; reflexivity|].
    destruct (rounds n (S j) body ps1) as [l ps2]. cbn [fst snd] in *. split; [|auto].
    rewrite X, SK. assert (SK' : skipn (i + 1) (all_problems s) = []) by (apply skipn_all2; apply nth_error_None in P; lia).
    rewrite SK'. reflexivity.
Qed.

(** ** Life time *)
Lemma returned_new : forall k s is ps o h ps1, inv k s is ps -> perform ps o = (Ret (Some h), ps1) ->
  valid ps1 h /\ h = List.length (objects ps) /\ (o = Next \/ current ps1 = current ps).
Proof.
  assert (G : forall ps q h ps1, get_problem ps q = (Ret h, ps1) -> valid ps1 h /\ h = List.length (objects ps) /\ current ps1 = current ps).
  { intros ps q h ps1. unfold get_problem. destruct (initialized ps); cbn [negb]; [|discriminate].
    destruct (match q with KInt z => Some z | KStr s0 => option_map Z.of_nat (position s0 (ids ps) 0) end); [|discriminate].
    destruct (list_index _ _); [|discriminate].
    match goal with |- context [problem_init ps ?r] => destruct r as [[p|]| |] end; cbn; try discriminate.
    intros [= <- <-]. split; auto. exists p. cbn. rewrite nth_error_app2, Nat.sub_diag by auto. reflexivity. }
  assert (S1 : forall (r : out nat * pysuite) h ps1,
    (match fst r with Ret h => Ret (Some h) | Raise e => Raise e | Dead => Dead end, snd r) = (Ret (Some h), ps1) -> r = (Ret h, ps1)).
  { intros [[x| |] y] h ps1 E; cbn in E; try discriminate. injection E as -> ->. reflexivity. }
  intros k s is ps o h ps1 I E. destruct o as [| |q|f d i|l|h'|h'|]; cbn [perform] in E; try discriminate.
  - unfold next_problem in E. destruct (initialized ps); cbn [negb] in E; [|discriminate].
    destruct (_ <=? _); [discriminate|].
    destruct (free_current_rest ps) as (_ & _ & _ & _ & _ & _ & _ & _ & L).
    match type of E with context [problem_init ?ps1 ?r] => destruct r as [[p|]| |] end; cbn in E; try discriminate.
    injection E as <- <-. split; [|split; auto]. exists p. cbn. rewrite nth_error_app2, Nat.sub_diag by auto. reflexivity.
  - apply S1 in E. destruct (G _ _ _ _ E) as (A & B & C). auto.
  - apply S1 in E. unfold get_problem_by_function_dimension_instance in E.
    destruct (size_t f), (size_t d), (size_t i); try discriminate. destruct (initialized ps); cbn [negb] in E; [|discriminate].
    match type of E with context [problem_init ps ?r] => destruct r as [[p|]| |] end; cbn in E; try discriminate.
    injection E as <- <-. split; [|auto]. exists p. cbn. rewrite nth_error_app2, Nat.sub_diag by auto. reflexivity.
  - apply S1 in E. unfold find_problem in E. destruct (find_ids ps l); [discriminate|].
    destruct (G _ _ _ _ E) as (A & B & C). auto.
Qed.

(** An object is closed only by its own end or, if it is the current one, when the suite moves on. *)
Lemma keeps_valid : forall k s is ps o h, inv k s is ps -> valid ps h -> ~ ends h o -> (current ps <> Some h \/ ~ moves o) ->
  valid (snd (perform ps o)) h /\ (current (snd (perform ps o)) = Some h -> current ps = Some h).
Proof.
  intros k s is ps o h I V N M.
  assert (App : forall ps' p, objects ps' = objects ps ++ [mk_pobj p true] -> valid ps' h).
  { intros ps' p E. destruct V as [q Q]. exists q. rewrite E, nth_error_app1; auto. apply nth_error_Some. congruence. }
  assert (G : forall q, valid (snd (get_problem ps q)) h).
  { intros q. unfold get_problem. destruct (initialized ps); cbn [negb]; [|exact V].
    destruct (match q with KInt z => Some z | KStr s0 => option_map Z.of_nat (position s0 (ids ps) 0) end); [|exact V].
    destruct (list_index _ _); [|exact V].
    match goal with |- context [problem_init ps ?r] => destruct r as [[p|]| |] end; cbn; auto. apply (App _ p). reflexivity. }
  assert (F : forall h', h' <> h -> valid (free_problem ps h') h).
  { intros h' Ne. destruct V as [q Q]. exists q. rewrite free_problem_object. destruct (Nat.eqb_spec h h'); [congruence|]. auto. }
  assert (Lh : h < List.length (objects ps)) by (destruct V as [q Q]; apply nth_error_Some; congruence).
  assert (FC : current ps <> Some h -> valid (free_current ps) h).
  { intros C. unfold free_current. destruct (current ps) as [c|]; [apply F; congruence|exact V]. }
  destruct (free_current_rest ps) as (A1 & A2 & A3 & A4 & A5 & A6 & A7 & A8 & A9).
  destruct o as [| |q|f d i|l|h'|h'|].
  - destruct M as [M|M]; [|destruct M; left; reflexivity]. specialize (FC M).
    cbn [perform snd]. unfold next_problem. destruct (initialized ps); cbn [negb]; [|auto].
    destruct (_ <=? _); [cbn; split; [exact FC|discriminate]|].
    match goal with |- context [problem_init ?ps1 ?r] => destruct r as [[p|]| |] end; cbn.
    + split; [|intros [= E]; lia].
      destruct FC as [q Q]. exists q. cbn. rewrite nth_error_app1; auto. apply nth_error_Some. congruence.
    + split; [exact FC|rewrite A7; auto].
    + split; [exact FC|rewrite A7; auto].
    + split; [exact FC|rewrite A7; auto].
  - destruct M as [M|M]; [|destruct M; right; reflexivity]. cbn. split; [exact (FC M)|discriminate].
  - pose proof (quiet_keeps (Get q) ps Logic.I) as (_ & _ & _ & K & _). cbn zeta in K. rewrite K. split; auto. apply G.
  - pose proof (quiet_keeps (ByNumbers f d i) ps Logic.I) as (_ & _ & _ & K & _). cbn zeta in K. rewrite K. split; auto.
    cbn [perform snd]. unfold get_problem_by_function_dimension_instance.
    destruct (size_t f), (size_t d), (size_t i); auto. destruct (initialized ps); cbn [negb]; auto.
    match goal with |- context [problem_init ps ?r] => destruct r as [[p|]| |] end; cbn; auto. apply (App _ p). reflexivity.
  - pose proof (quiet_keeps (Find l) ps Logic.I) as (_ & _ & _ & K & _). cbn zeta in K. rewrite K. split; auto.
    cbn [perform snd]. unfold find_problem. destruct (find_ids ps l); [exact V|]. apply G.
  - pose proof (quiet_keeps (FreeProblem h') ps Logic.I) as (_ & _ & _ & K & _). cbn zeta in K. rewrite K. split; auto.
    cbn. apply F. intros ->. apply N. left. reflexivity.
  - pose proof (quiet_keeps (Drop h') ps Logic.I) as (_ & _ & _ & K & _). cbn zeta in K. rewrite K. split; auto.
    assert (Ne : h' <> h) by (intros ->; apply N; right; reflexivity).
    cbn. destruct (current ps) as [c|]; [destruct (c =? h'); auto|]; apply F; auto.
  - cbn. split; auto.
Qed.

(** ** Numbers in ids *)
