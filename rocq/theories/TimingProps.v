(** C94: the loop over the suite in the C example. *)
From Coq Require Import List Arith NArith ZArith Ascii String Bool Lia.
From Verif Require Import CBase StrModel StrSpec OptModel OptSpec SuiteModel SuiteSpec SuiteProofs SuiteBuildProofs TimingModel TimingSpec.
From Verif Require SuiteProps.
Import ListNotations.
Local Open Scope N_scope.
Local Notation length := List.length.

Definition pending (t : timing) : list (N * N) := if 0 <? cumulative_evaluations t then [(previous_dimension t, cumulative_evaluations t)] else [].
Lemma pending_mk : forall n o p c, pending (mk_timing n o p c) = if 0 <? c then [(p, c)] else [].
Proof. reflexivity. Qed.
Fixpoint time_all (evaluations : problem -> N) (ps : list problem) (t : timing) : res timing :=
  match ps with
  | [] => Ok t
  | p :: ps' => do t' <- timing_data_time_problem t (Some (dep_dimension p, evaluations p)); time_all evaluations ps' t'
  end.
Lemma time_all_app : forall ev a b t, time_all ev (a ++ b) t = do t' <- time_all ev a t; time_all ev b t'.
Proof. induction a as [|p a IH]; intros b t; [reflexivity|]. cbn [time_all app]. destruct (timing_data_time_problem t _); cbn [bind]; [apply IH|reflexivity|reflexivity]. Qed.
Lemma time_same : forall ev ps t, Forall (fun p => dep_dimension p = previous_dimension t) ps ->
  cumulative_evaluations t + sum (map ev ps) < W ->
  time_all ev ps t = Ok (mk_timing (number_of_dimensions t) (output t) (previous_dimension t) (cumulative_evaluations t + sum (map ev ps))).
Proof.
  intros ev ps. induction ps as [|p ps IH]; intros t A L; cbn [time_all map sum fold_right].
  - destruct t. cbn. rewrite N.add_0_r. reflexivity.
  - inversion A as [|x y D A' Q]; subst. unfold timing_data_time_problem. rewrite D, N.eqb_refl. cbn [negb bind].
    cbn [map sum fold_right] in L. fold (sum (map ev ps)) in L |- *. unfold wadd. rewrite N.mod_small by lia. rewrite IH; cbn; [|exact A'|lia].
    rewrite N.add_assoc. reflexivity.
Qed.
Lemma time_group : forall ev x ps t, Forall (fun p => dep_dimension p = x) ps -> ps <> [] -> x <> previous_dimension t ->
  sum (map ev ps) < W -> N.of_nat (length (output t ++ pending t)) <= number_of_dimensions t ->
  time_all ev ps t = Ok (mk_timing (number_of_dimensions t) (output t ++ pending t) x (sum (map ev ps))).
Proof.
  intros ev x ps t A NE D L B. destruct ps as [|p ps]; [contradiction|]. cbn [time_all]. inversion A as [|y z E A' Q]; subst.
  unfold timing_data_time_problem. destruct (N.eqb_spec (previous_dimension t) (dep_dimension p)) as [Z|_]; [congruence|]. cbn [negb].
  cbn [map sum fold_right] in L |- *. fold (sum (map ev ps)) in L |- *.
  unfold pending in *. destruct (N.ltb_spec 0 (cumulative_evaluations t)) as [C|C].
  - rewrite app_length in B. cbn [Datatypes.length] in B. destruct (N.ltb_spec (N.of_nat (length (output t))) (number_of_dimensions t)); [|lia]. cbn [bind].
    rewrite time_same by (cbn; (exact A' || lia)). reflexivity.
  - cbn [bind]. rewrite time_same by (cbn; (exact A' || lia)). rewrite app_nil_r. reflexivity.
Qed.
Lemma time_groups : forall ev (g : nat -> list problem) (x : nat -> N) ds t,
  (forall d, Forall (fun p => dep_dimension p = x d) (g d)) -> NoDup (previous_dimension t :: map x ds) ->
  Forall (fun d => sum (map ev (g d)) < W) ds ->
  N.of_nat (length (output t ++ pending t) + length ds) <= number_of_dimensions t ->
  exists t', time_all ev (flat_map g ds) t = Ok t' /\ number_of_dimensions t' = number_of_dimensions t /\
    N.of_nat (length (output t' ++ pending t')) <= number_of_dimensions t' /\
    output t' ++ pending t' = (output t ++ pending t) ++ filter (fun l => 0 <? snd l) (map (fun d => (x d, sum (map ev (g d)))) ds).
Proof.
  intros ev g x ds. induction ds as [|d ds IH]; intros t G ND S B; cbn [flat_map map filter].
  - exists t. cbn [length] in B. rewrite app_nil_r. repeat split. lia.
  - cbn [map] in ND. inversion ND as [|a b N1 N2 Q]; subst. inversion S as [|a b S1 S2 Q]; subst. cbn [length] in B. rewrite time_all_app.
    destruct (list_eq_dec (fun _ _ : problem => ltac:(decide equality; apply N.eq_dec)) (g d) []) as [E|E].
    + rewrite E. cbn [time_all bind map sum fold_right snd]. change (0 <? 0) with false. cbv iota. apply IH; [exact G| |exact S2|lia].
      constructor; [intros I; apply N1; right; exact I|]. inversion N2; assumption.
    + rewrite (time_group ev (x d) (g d) t (G d) E) by (exact S1 || lia || (intros Z; apply N1; left; exact Z)). cbn [bind].
      destruct (IH (mk_timing (number_of_dimensions t) (output t ++ pending t) (x d) (sum (map ev (g d))))) as (t' & T1 & T2 & T3 & T4);
        [exact G|exact N2|exact S2| |].
      * cbn [output number_of_dimensions]. rewrite pending_mk, app_length.
        destruct (0 <? sum (map ev (g d))); cbn [Datatypes.length]; lia.
      * exists t'. split; [exact T1|]. split; [exact T2|]. split; [exact T3|]. rewrite T4. cbn [output snd]. rewrite pending_mk.
        destruct (0 <? sum (map ev (g d))); [rewrite <- !app_assoc; reflexivity|rewrite app_nil_r; reflexivity].
Qed.
Lemma suite_loop_all : forall ev ps fuel s s' t, (length ps < fuel)%nat -> next_calls (S (length ps)) s = Ok (map Some ps ++ [None], s') ->
  suite_loop fuel ev s t = do t' <- time_all ev ps t; Ok (Some t').
Proof.
  intros ev ps. induction ps as [|p ps IH]; intros [|fuel] s s' t LF E; try (cbn in LF; lia); cbn [next_calls length suite_loop] in *.
  - destruct (coco_suite_get_next_problem s) as [[q s1]| |]; cbn [bind] in E; try discriminate E. injection E as -> _. reflexivity.
  - destruct (coco_suite_get_next_problem s) as [[q s1]| |]; cbn [bind] in E; try discriminate E.
    match type of E with context [bind ?u _] => change u with (next_calls (S (length ps)) s1) in E end.
    destruct (next_calls (S (length ps)) s1) as [[qs s2]| |] eqn:E1; cbn [bind] in E; try discriminate E. injection E as -> -> ->.
    cbn [time_all bind]. destruct (timing_data_time_problem t (Some (dep_dimension p, ev p))) as [t1| |]; cbn [bind]; [|reflexivity|reflexivity]. apply (IH fuel s1 s'); [lia|exact E1].
Qed.
Lemma flat_map_flat_map : forall {A B C : Type} (f : A -> list B) (g : B -> C) l, map g (flat_map f l) = flat_map (fun a => map g (f a)) l.
Proof. intros A B C f g l. induction l as [|a l IH]; [reflexivity|]. cbn. rewrite map_app, IH. reflexivity. Qed.
Lemma all_problems_groups : forall s, all_problems s = flat_map (problems_in s) (positions (dimensions s)).
Proof.
  intros s. unfold all_problems, combinations, problems_in. rewrite flat_map_flat_map. apply flat_map_ext. intros d.
  rewrite flat_map_flat_map. apply flat_map_ext. intros f. rewrite map_map. reflexivity.
Qed.
Lemma problems_in_dimension : forall s d, Forall (fun p => dep_dimension p = nth d (dimensions s) 0) (problems_in s d).
Proof.
  intros s d. apply Forall_forall. intros p I. unfold problems_in in I. apply in_flat_map in I as (f & _ & I). apply in_map_iff in I as (i & <- & _). reflexivity.
Qed.
Lemma positions_values : forall l, map (fun d => nth d l 0) (positions l) = filter (fun x => negb (x =? 0)) l.
Proof.
  intros l. unfold positions, positions_from. rewrite Nat.sub_0_r.
  enough (H : forall pre l, map (fun d => nth d (pre ++ l) 0) (filter (fun k => negb (nth k (pre ++ l) 0 =? 0)) (seq (length pre) (length l))) = filter (fun x => negb (x =? 0)) l)
    by exact (H [] l).
  clear l. intros pre l. revert pre. induction l as [|x l IH]; intros pre; [reflexivity|]. cbn [length seq filter].
  assert (E : nth (length pre) (pre ++ x :: l) 0 = x) by (rewrite app_nth2, Nat.sub_diag by lia; reflexivity). rewrite E.
  specialize (IH (pre ++ [x])). rewrite <- app_assoc, app_length, Nat.add_comm in IH. cbn [app length Nat.add] in IH.
  destruct (negb (x =? 0)); cbn [map]; rewrite ?E, IH; reflexivity.
Qed.
Lemma positions_length : forall l, (length (positions l) <= length l)%nat.
Proof.
  intros l. rewrite <- (map_length (fun d => nth d l 0)), positions_values. clear. induction l as [|x l IH]; [cbn; lia|]. cbn. destruct (negb (x =? 0)); cbn; lia.
Qed.
Lemma last_index : forall f d i : N, 0 < f -> 0 < d -> 0 < i -> f * d * i - 1 = i - 1 + (f - 1) * i + (d - 1) * i * f.
Proof.
  intros f d i P1 P2 P3. replace f with (N.succ (N.pred f)) by lia. replace d with (N.succ (N.pred d)) by lia. replace i with (N.succ (N.pred i)) by lia.
  generalize (N.pred f) (N.pred d) (N.pred i). clear. intros f d i. rewrite !N.sub_1_r. rewrite !N.pred_succ.
  replace (N.succ f * N.succ d * N.succ i) with (N.succ (i + f * N.succ i + d * N.succ i * N.succ f)) by lia. rewrite N.pred_succ. reflexivity.
Qed.
Lemma factor_le : forall a b c : N, 0 < a -> 0 < b -> c <= a * b * c.
Proof. intros a b c P Q. rewrite <- (N.mul_1_l c) at 1. apply N.mul_le_mono_r. nia. Qed.
Lemma initialize_ok : forall s, size_ok s -> functions s <> [] -> dimensions s <> [] -> instances s <> [] ->
  timing_data_initialize s = Ok (mk_timing (nD s) [] 0 0).
Proof.
  intros s SO Hf Hd Hi. unfold timing_data_initialize.
  assert (P : 0 < nF s /\ 0 < nD s /\ 0 < nI s).
  { unfold nF, nD, nI. destruct (functions s); [contradiction|]. destruct (dimensions s); [contradiction|]. destruct (instances s); [contradiction|]. cbn [length]. lia. }
  assert (L : nI s * nF s * nD s < W) by exact SO. destruct P as (P1 & P2 & P3).
  destruct (SuiteProps.C01_encode_in_range s (nF s - 1) (nD s - 1) (nI s - 1) SO) as [E1 E2]; try lia.
  edestruct (encode_eq s SO) with (f := nF s - 1) (d := nD s - 1) (i := nI s - 1) as [E3 E4]; try lia.
  assert (E : wsub1 (coco_suite_get_number_of_problems s) = coco_suite_encode_problem_index s (nF s - 1) (nD s - 1) (nI s - 1)).
  { rewrite E2, E3, <- last_index by assumption. clear E1 E2 E3 E4. replace (nI s * nF s * nD s) with (nF s * nD s * nI s) in L by ring.
    assert (0 < nF s * nD s * nI s) by (apply N.mul_pos_pos; [apply N.mul_pos_pos|]; assumption).
    generalize dependent (nF s * nD s * nI s). intros n L P. unfold wsub1. replace (n + (W - 1)) with (n - 1 + 1 * W) by lia.
    rewrite N.mod_add by discriminate. apply N.mod_small. lia. }
  rewrite E, SuiteProps.C01_decode_encode by (exact SO || lia). cbn [bind]. unfold wadd. rewrite N.mod_small.
  - rewrite N.sub_add by lia. reflexivity.
  - pose proof (factor_le (nI s) (nF s) (nD s) P3 P1). lia.
Qed.
Lemma timing_ok : forall s ev fuel, fresh s -> nonempty s -> size_ok s -> distinct (dimensions s) ->
  Forall (fun d => evaluations_in s ev d < 2 ^ 64) (positions (dimensions s)) -> (length (combinations s) < fuel)%nat ->
  example_experiment fuel ev s = Ok (Some (lines s ev)).
Proof.
  intros s ev fuel Hf (P1 & P2 & P3) SO D S LF. unfold example_experiment.
  assert (NE : forall l, positions l <> [] -> l <> []) by (intros l H ->; apply H; reflexivity).
  rewrite initialize_ok by auto. cbn [bind]. destruct (iteration_complete s SO Hf P3) as (s' & E & _).
  assert (LA : length (all_problems s) = length (combinations s)) by apply map_length. rewrite <- LA in E, LF.
  rewrite (suite_loop_all ev (all_problems s) fuel s s' _ LF E). rewrite all_problems_groups.
  destruct (time_groups ev (problems_in s) (fun d => nth d (dimensions s) 0) (positions (dimensions s)) (mk_timing (nD s) [] 0 0)) as (t & T1 & T2 & T3 & T4).
  - apply problems_in_dimension.
  - cbn [previous_dimension]. rewrite positions_values. constructor; [|exact D]. intros I. apply filter_In in I as [_ I]. discriminate I.
  - eapply Forall_impl; [|exact S]. intros d H. exact H.
  - cbn [output number_of_dimensions]. unfold pending. cbn. unfold nD. pose proof (positions_length (dimensions s)). lia.
  - rewrite T1. cbn [bind]. unfold timing_data_finalize, timing_data_time_problem. cbn in T4. unfold lines, evaluations_in. rewrite <- T4. clear T1 T4.
    unfold pending in *. destruct (0 <? cumulative_evaluations t).
    + rewrite app_length in T3. cbn [Datatypes.length] in T3. destruct (N.ltb_spec (N.of_nat (length (output t))) (number_of_dimensions t)); [|lia]. reflexivity.
    + rewrite app_nil_r. reflexivity.
Qed.
Lemma Forall2_nth : forall {A B : Type} (P : A -> B -> Prop) a b, length b = length a ->
  (forall k x, nth_error a k = Some x -> exists y, nth_error b k = Some y /\ P x y) -> Forall2 P a b.
Proof.
  intros A B P a. induction a as [|x a IH]; intros [|y b] L H; try discriminate L; constructor.
  - destruct (H 0%nat x eq_refl) as (z & E & Q). injection E as <-. exact Q.
  - apply IH; [injection L as L; exact L|]. intros k z E. exact (H (S k) z E).
Qed.
Definition thinned (a b : list N) : Prop := Forall2 (fun x y => y = x \/ y = 0) a b.
Lemma thinned_distinct : forall a b, thinned a b -> distinct a -> distinct b.
Proof.
  unfold distinct. intros a b T. assert (SUB : forall x, In x (filter (fun x => negb (x =? 0)) b) -> In x (filter (fun x => negb (x =? 0)) a)).
  { induction T as [|x y a b Q T IH]; intros z I; [exact I|]. cbn [filter] in *. destruct Q as [->| ->].
    - destruct (negb (x =? 0)); [destruct I as [I|I]; [left; exact I|right; apply IH, I]|apply IH, I].
    - cbn in I. destruct (negb (x =? 0)); [right|]; apply IH, I. }
  revert SUB. induction T as [|x y a b Q T IH]; intros SUB D; [exact D|]. cbn [filter] in *.
  assert (SUB' : forall x, In x (filter (fun x => negb (x =? 0)) b) -> In x (filter (fun x => negb (x =? 0)) a)).
  { clear - T. induction T as [|x y a b Q T IH]; intros z I; [exact I|]. cbn [filter] in *. destruct Q as [->| ->].
    - destruct (negb (x =? 0)); [destruct I as [I|I]; [left; exact I|right; apply IH, I]|apply IH, I].
    - cbn in I. destruct (negb (x =? 0)); [right|]; apply IH, I. }
  destruct Q as [->| ->].
  - destruct (negb (x =? 0)); [|apply IH; assumption]. inversion D as [|u v D1 D2 E]; subst. constructor; [intros I; apply D1, SUB', I|apply IH; assumption].
  - cbn. apply IH; [exact SUB'|]. destruct (negb (x =? 0)); [inversion D; assumption|exact D].
Qed.
Lemma thinned_refl : forall l, thinned l l.
Proof. induction l; constructor; auto. Qed.
Lemma select_positions_thinned : forall o k a b, select_positions o k a b -> thinned a b.
Proof.
  intros o k a b (t & l & _ & _ & [[_ ->]|[_ [L K]]]); [apply thinned_refl|]. apply Forall2_nth; [exact L|]. intros j x E. destruct (K j x E) as [K1 K2].
  destruct (in_dec N.eq_dec (N.of_nat (S j)) l) as [I|I]; eexists; (split; [exact (K1 I) || exact (K2 I)|]); auto.
Qed.
Lemma select_values_thinned : forall o k a b, select_values o k a b -> thinned a b.
Proof.
  intros o k a b (t & l & _ & _ & [[_ ->]|[_ [L K]]]); [apply thinned_refl|]. apply Forall2_nth; [exact L|]. intros j x E. destruct (K j x E) as [K1 K2].
  destruct (in_dec N.eq_dec x (upto_zero l)) as [I|I]; eexists; (split; [exact (K1 I) || exact (K2 I)|]); auto.
Qed.
Lemma select_dimensions_distinct : forall o a b, select_dimensions o a b -> distinct a -> distinct b.
Proof.
  intros o a b [(i & j & _ & _ & _ & H)|[(i & j & _ & _ & _ & H)|(_ & m & H1 & H2)]] D.
  - exact (thinned_distinct a b (select_values_thinned _ _ _ _ H) D).
  - exact (thinned_distinct a b (select_positions_thinned _ _ _ _ H) D).
  - exact (thinned_distinct m b (select_values_thinned _ _ _ _ H2) (thinned_distinct a m (select_positions_thinned _ _ _ _ H1) D)).
Qed.
(** For every suite of the library, however it is filtered, and any numbers of evaluations made on its problems (less than 2^64 in a
    dimension): the loop over the suite ends, the array of lines is not exceeded, and there is one line for each dimension in which something
    was evaluated, in the order of the suite, with the number of evaluations on all its problems. *)
Theorem C94_timing : forall name d inst options s ev fuel, coco_suite_initialize name = Ok d -> small inst -> small options ->
  coco_suite d inst options = Ok (Some s) -> Forall (fun d => evaluations_in s ev d < 2 ^ 64) (positions (dimensions s)) ->
  (length (combinations s) < fuel)%nat -> example_experiment fuel ev s = Ok (Some (lines s ev)).
Proof.
  intros name d inst options s ev fuel I Si So E S LF.
  assert (D : distinct (sd_dimensions d)).
  { revert I. unfold coco_suite_initialize. repeat match goal with |- context [if ?b then _ else _] => destruct b end; intros I; try discriminate I;
    injection I as <-; unfold distinct; vm_compute; repeat constructor; intros K; repeat destruct K as [K|K]; try discriminate K; exact K. }
  destruct (coco_suite_built d inst options s (SuiteProps.C03_known_suites name d I) Si So E) as (Hf & Hn & Hs & ins & _ & _ & _ & _ & _ & _ & SD).
  apply timing_ok; auto. exact (select_dimensions_distinct options _ _ SD D).
Qed.
(** The lines are about distinct dimensions and account for every evaluation. *)
Theorem C94_accounted : forall s ev, distinct (dimensions s) ->
  NoDup (map fst (lines s ev)) /\ sum (map snd (lines s ev)) = sum (map ev (all_problems s)).
Proof.
  intros s ev D. unfold lines. split.
  - unfold distinct in D. revert D. rewrite <- positions_values.
    generalize (positions (dimensions s)). intros l. induction l as [|d l IH]; intros D; [constructor|]. cbn [map filter]. inversion D as [|u v D1 D2 E]; subst.
    destruct (0 <? snd _); [|apply IH; exact D2]. cbn [map fst]. constructor; [|apply IH; exact D2]. intros I. apply D1. clear - I.
    apply in_map_iff in I as ([x y] & E & I). apply filter_In in I as [I _]. apply in_map_iff in I as (k & E2 & I). cbn in E. injection E2 as E2 _.
    apply in_map_iff. exists k. split; [congruence|exact I].
  - rewrite all_problems_groups. assert (SA : forall a b, sum (a ++ b) = sum a + sum b).
    { induction a as [|x a IH]; intros b; [reflexivity|]. cbn [app sum fold_right]. fold (sum (a ++ b)) (sum a). rewrite IH. lia. }
    generalize (positions (dimensions s)). intros l. induction l as [|d l IH]; [reflexivity|]. cbn [map filter flat_map snd]. rewrite map_app, SA, <- IH.
    change (sum (map ev (problems_in s d))) with (evaluations_in s ev d). destruct (N.ltb_spec 0 (evaluations_in s ev d)) as [L|L]; [reflexivity|].
    apply N.le_0_r in L. rewrite L. reflexivity.
Qed.
Example C94_example : let ev := fun p => if dep_function p =? 1 then 10 * dep_instance p else 0 in
  (length (combinations SuiteProps.ex_suite) < 20)%nat /\ Forall (fun d => evaluations_in SuiteProps.ex_suite ev d < 2 ^ 64) (positions (dimensions SuiteProps.ex_suite)) /\
  example_experiment 20 ev SuiteProps.ex_suite = Ok (Some [(5, 150); (20, 150)]) /\
  example_experiment 20 (fun p => if dep_dimension p =? 5 then 0 else 7) SuiteProps.ex_suite = Ok (Some [(20, 42)]) /\
  example_experiment 20 (fun _ => 0) SuiteProps.ex_suite = Ok (Some []).
Proof. vm_compute. repeat split; repeat constructor. Qed.

Print Assumptions C94_timing.
Print Assumptions C94_accounted.
