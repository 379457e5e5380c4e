(** C92: the example experiments keep their budget, signal restarts and end. *)
From Coq Require Import List Arith NArith ZArith Bool Lia.
Import ListNotations.
From Verif Require Import CBase DblModel DblSpec ProbModel ProbSpec ProbProofs DemoModel DemoSpec DemoProofs.
From Verif Require ProbProps.
Local Open Scope nat_scope.

Lemma unused_not_hit : forall C (p : problem C), unused p -> coco_problem_final_target_hit (head p) = Ok false.
Proof. intros C p [E _]. unfold coco_problem_final_target_hit. rewrite E, orb_true_r. reflexivity. Qed.
Lemma unused_total : forall C (p : problem C), unused p -> total_evaluations p = 0%N.
Proof. intros C p [A B]. unfold total_evaluations. rewrite A, B. reflexivity. Qed.

(** Problems without constraints, any algorithm that keeps its budget, any number of restarts: in C, *)
Theorem C92_c : forall (C : class) no (I : data C -> Prop) (p : problem C) alg m R, let n := number_of_variables (head p) in
  let B := (N.of_nat n * m)%N in
  never_fails C n no 0 I -> 0 < n -> 0 < no -> number_of_objectives (head p) = no -> number_of_constraints (head p) = 0 -> I (body p) ->
  has_best_value (head p) -> unused p -> (B < 2 ^ 64)%N -> keeps_budget n 0 alg ->
  exists l q, c_experiment alg m R p = Ok (l, q) /\ sound B (1 + R) l q /\ announced l /\ (evaluates 0 alg -> complete B (1 + R) l q).
Proof.
  intros C no I p alg m R n B NF Pn Po O Nc Ib HB U LB KB. unfold c_experiment.
  rewrite (proj2 (dimension_ok (head p) n)) by (split; [reflexivity|exact Pn]). cbn [bind].
  replace (w64 (N.of_nat n * m)) with B by (symmetry; apply N.mod_small; exact LB).
  apply (c_runs_ok n no 0 I alg NF Pn Po KB B (1 + R) 1 p); auto.
  - repeat split; auto.
  - apply U.
  - rewrite unused_total by exact U. lia.
Qed.
(** and in Java; *)
Theorem C92_java : forall (C : class) no (I : data C -> Prop) (p : problem C) alg m R, let n := number_of_variables (head p) in
  let B := (N.of_nat n * m)%N in
  never_fails C n no 0 I -> 0 < n -> 0 < no -> number_of_objectives (head p) = no -> number_of_constraints (head p) = 0 -> I (body p) ->
  has_best_value (head p) -> unused p -> keeps_budget n 0 alg ->
  exists l q, java_experiment alg m R p = Ok (l, q) /\ sound B (1 + R) l q /\ announced l /\ (evaluates 0 alg -> complete B (1 + R) l q).
Proof.
  intros C no I p alg m R n B NF Pn Po O Nc Ib HB U KB. unfold java_experiment.
  rewrite (proj2 (dimension_ok (head p) n)) by (split; [reflexivity|exact Pn]). cbn [bind].
  apply (java_runs_ok n no 0 I alg NF Pn Po KB B (1 + R) 1 p); auto.
  - repeat split; auto.
  - apply U.
  - rewrite unused_total by exact U. lia.
Qed.
(** in MATLAB also with constraints; *)
Theorem C92_matlab : forall (C : class) no nc (I : data C -> Prop) (p : problem C) alg m R, let n := number_of_variables (head p) in
  let B := (N.of_nat n * m)%N in
  never_fails C n no nc I -> 0 < n -> 0 < no -> number_of_objectives (head p) = no -> number_of_constraints (head p) = nc -> I (body p) ->
  has_best_value (head p) -> unused p -> keeps_budget n nc alg ->
  exists l q, matlab_experiment alg m R p = Ok (l, q) /\ sound B (1 + R) l q /\ announced l /\ (evaluates nc alg -> complete B (1 + R) l q).
Proof.
  intros C no nc I p alg m R n B NF Pn Po O Nc Ib HB U KB. unfold matlab_experiment.
  rewrite (proj2 (dimension_ok (head p) n)) by (split; [reflexivity|exact Pn]). cbn [bind].
  apply (matlab_runs_ok n no nc I alg NF Pn Po KB B (1 + R) 1 p); auto.
  - repeat split; auto.
  - rewrite unused_total by exact U. lia.
  - unfold hit. rewrite unused_not_hit by exact U. discriminate.
Qed.
(** in Rust as well, with one run less and without any restart signalled. *)
Theorem C92_rust : forall (C : class) no nc (I : data C -> Prop) (p : problem C) alg m R, let n := number_of_variables (head p) in
  let B := (N.of_nat n * m)%N in
  never_fails C n no nc I -> 0 < n -> 0 < no -> number_of_objectives (head p) = no -> number_of_constraints (head p) = nc -> I (body p) ->
  has_best_value (head p) -> unused p -> keeps_budget n nc alg ->
  exists l q, rust_experiment alg m R p = Ok (l, q) /\ sound B R l q /\ ~ In Signal l /\ (evaluates nc alg -> complete B R l q).
Proof.
  intros C no nc I p alg m R n B NF Pn Po O Nc Ib HB U KB. unfold rust_experiment.
  rewrite (proj2 (dimension_ok (head p) n)) by (split; [reflexivity|exact Pn]). cbn [bind].
  assert (NS : forall k run (p : problem C) l q, rust_runs alg B k run p = Ok (l, q) -> ~ In Signal l).
  { intros k. clear. induction k as [|k IH]; intros run p' l q H; cbn [rust_runs] in H; [injection H as <- _; intros []|].
    apply bind_Ok in H as [h [_ H]]. destruct (h || _); [injection H as <- _; intros []|]. apply bind_Ok in H as [q1 [_ H]].
    apply bind_Ok in H as [[l1 r1] [E H]]. injection H as <- _. intros [K|K]; [discriminate K|]. exact (IH _ _ _ _ E K). }
  destruct (rust_runs_ok n no nc I alg NF Pn Po KB B R 1 p) as (l & q & E1 & E2 & E3).
  - repeat split; auto.
  - rewrite unused_total by exact U. lia.
  - exists l, q. split; [exact E1|]. split; [exact E2|]. split; [exact (NS _ _ _ _ _ E1)|exact E3].
Qed.

(** ** Random search *)
Section Search.
Context {C : class} (n nc : nat) (point : nat -> nat -> list double).
Hypothesis PT : forall run i, length (point run i) = n /\ regular (point run i).
Lemma search_counts : forall run b (p : problem C), number_of_constraints (head p) = nc ->
  sized n (random_search point run b p) /\ counted_evaluations (random_search point run b p) = N.to_nat b /\
  counted_constraints (random_search point run b p) = (if 0 <? nc then N.to_nat b else 0) /\
  (nc = 0 -> forall x, ~ In (Constrain x) (random_search point run b p)).
Proof.
  intros run b p N. unfold random_search. rewrite N. set (l := seq 0 (N.to_nat b)).
  replace (N.to_nat b) with (length l) by apply seq_length. clearbody l. clear b.
  assert (RB : forall i, regularb (point run i) = true) by (intros i; apply regularb_spec, PT).
  unfold counted_evaluations, counted_constraints, sized. induction l as [|i l (Z & A & B & D)].
  - repeat split; [constructor|destruct (0 <? nc); reflexivity|intros _ x []].
  - cbn [flat_map length]. destruct (0 <? nc) eqn:P; cbn [app filter] in *; rewrite ?RB; cbn [length]; rewrite A, B.
    + split; [repeat constructor; [apply PT..|exact Z]|]. split; [reflexivity|]. split; [reflexivity|]. intros ->. discriminate P.
    + split; [repeat constructor; [apply PT|exact Z]|]. split; [reflexivity|]. split; [reflexivity|]. intros E x [K|K]; [discriminate K|]. exact (D E x K).
Qed.
End Search.
(** Without constraints the random search of C, Java and MATLAB keeps the budget, so that the theorems above hold for it. *)
Theorem C92_search : forall (C : class) n point, (forall run i, length (point run i) = n /\ regular (point run i)) ->
  keeps_budget (C:=C) n 0 (random_search point) /\ evaluates (C:=C) 0 (random_search point).
Proof.
  intros C n point PT. split.
  - intros run b p N. destruct (search_counts n 0 point PT run b p N) as (Z & A & B & D). split; [exact Z|]. split; [exact D|].
    rewrite A, B. cbn. lia.
  - intros run b p N L. destruct (search_counts n 0 point PT run b p N) as (Z & A & B & D). rewrite A. lia.
Qed.
(** Deviation: with constraints it makes two evaluations for each one of the budget: twice the budget in Java and MATLAB, *)
Theorem C92_twice_refuted : forall (C : class) no nc (I : data C -> Prop) (p : problem C) point m R, let n := number_of_variables (head p) in
  let B := (N.of_nat n * m)%N in
  never_fails C n no nc I -> 0 < n -> 0 < no -> 0 < nc -> number_of_objectives (head p) = no -> number_of_constraints (head p) = nc -> I (body p) ->
  has_best_value (head p) -> unused p -> (0 < B)%N -> (forall run i, length (point run i) = n /\ regular (point run i)) ->
  exists l q l' q', java_experiment (random_search point) m R p = Ok (l, q) /\ total_evaluations q = (2 * B)%N /\
                    matlab_experiment (random_search point) m R p = Ok (l', q') /\ total_evaluations q' = (2 * B)%N.
Proof.
  intros C no nc I p point m R n B NF Pn Po Pc O Nc Ib HB U PB PT. unfold java_experiment, matlab_experiment.
  rewrite (proj2 (dimension_ok (head p) n)) by (split; [reflexivity|exact Pn]). cbn [bind].
  fold B. destruct (search_counts n nc point PT 1 B p Nc) as (Z & A & Cc & D).
  destruct (execute_any n no nc I NF Pn Po (random_search point) 1 B p) as (q & E & S & F & G); [repeat split; auto|exact Z|exact D|].
  destruct (Nat.ltb_spec 0 nc) as [_|]; [|lia]. rewrite A in F. rewrite Cc in G. destruct U as [U1 U2].
  assert (TP : total_evaluations p = 0%N) by (unfold total_evaluations; lia).
  assert (TQ : total_evaluations q = (2 * B)%N) by (unfold total_evaluations; lia).
  cbn [Nat.add java_runs matlab_runs]. rewrite unused_not_hit by (split; assumption). cbn [bind orb]. rewrite TP.
  replace (Z.to_N (Z.of_N B - Z.of_N 0)) with B by lia. rewrite N.sub_0_r, E. cbn [bind].
  destruct (Z.leb_spec (Z.of_N B - Z.of_N 0) 0); [lia|]. destruct (Z.eqb_spec (Z.of_N (evaluations (head q))) (Z.of_N 0)); [lia|].
  destruct (Z.ltb_spec (Z.of_N (evaluations (head q))) (Z.of_N 0)); [lia|]. destruct (N.ltb_spec 0 B); [|lia]. cbn [negb].
  destruct (target_ok n no nc I q S) as [h Hh]. rewrite Hh. cbn [bind]. destruct (N.leb_spec B (total_evaluations q)); [|lia]. rewrite orb_true_r.
  assert (J : java_runs (random_search point) (Z.of_N B) R 2 q = Ok ([], q)).
  { destruct R as [|R]; cbn [java_runs]; [reflexivity|]. rewrite Hh. cbn [bind]. destruct (Z.leb_spec (Z.of_N B - Z.of_N (total_evaluations q)) 0); [|lia].
    rewrite orb_true_r. reflexivity. }
  rewrite J. cbn [bind app]. eexists. exists q. eexists. exists q. repeat split; exact TQ.
Qed.
(** and in C, as the rest of the budget is computed without sign, the second run gets a budget of almost 2^64: with any restart allowed, the
    experiment does not end before that many evaluations. *)
Lemma c_runs_grow : forall (C : class) n no nc (I : data C -> Prop) alg B, never_fails C n no nc I -> 0 < n -> 0 < no ->
  (forall run b p, number_of_constraints (head p) = nc -> sized n (alg run b p) /\ (nc = 0 -> forall x, ~ In (Constrain x) (alg run b p))) ->
  forall k run (p : problem C) l q, shape n no nc I p -> c_runs alg B k run p = Ok (l, q) -> (evaluations (head p) <= evaluations (head q))%N.
Proof.
  intros C n no nc I alg B NF Pn Po SZ k. induction k as [|k IH]; intros run p l q S H; cbn [c_runs] in H; [injection H as _ <-; lia|].
  apply bind_Ok in H as [h [_ H]]. destruct (_ || _); [injection H as _ <-; lia|].
  pose proof S as (_ & _ & N & _).
  match type of H with context [execute alg run ?b p] => destruct (SZ run b p N) as [Z D];
    destruct (execute_any n no nc I NF Pn Po alg run b p S Z D) as (q1 & E & S1 & F & _) end.
  rewrite E in H. cbn [bind] in H. destruct (_ =? _)%N; [injection H as _ <-; lia|]. destruct (_ <? _)%N; [discriminate H|].
  apply bind_Ok in H as [[l1 r1] [E1 H]]. injection H as _ <-. specialize (IH _ _ _ _ S1 E1). lia.
Qed.
Theorem C92_endless_refuted : forall (C : class) no nc (I : data C -> Prop) (p : problem C) point m R l q, let n := number_of_variables (head p) in
  let B := (N.of_nat n * m)%N in
  never_fails C n no nc I -> 0 < n -> 0 < no -> 0 < nc -> number_of_objectives (head p) = no -> number_of_constraints (head p) = nc -> I (body p) ->
  has_best_value (head p) -> unused p -> (0 < B < 2 ^ 63)%N -> (forall run i, length (point run i) = n /\ regular (point run i)) ->
  0 < R -> c_experiment (random_search point) m R p = Ok (l, q) -> (2 ^ 64 <= evaluations (head q))%N.
Proof.
  intros C no nc I p point m R l q n B NF Pn Po Pc O Nc Ib HB U PB PT PR H. unfold c_experiment in H.
  rewrite (proj2 (dimension_ok (head p) n)) in H by (split; [reflexivity|exact Pn]). cbn [bind] in H.
  change (2 ^ 63)%N with 9223372036854775808%N in PB. change (2 ^ 64)%N with 18446744073709551616%N.
  assert (WB : w64 B = B) by (unfold w64; apply N.mod_small; change (2 ^ 64)%N with 18446744073709551616%N; lia).
  fold B in H. rewrite WB in H. destruct R as [|R]; [lia|]. cbn [Nat.add] in H.
  assert (SZ : forall run b (p : problem C), number_of_constraints (head p) = nc -> sized n (random_search point run b p) /\
               (nc = 0 -> forall x, ~ In (Constrain x) (random_search point run b p))).
  { intros run b p' N'. destruct (search_counts n nc point PT run b p' N') as (Z & _ & _ & D). split; assumption. }
  assert (S : shape n no nc I p) by (repeat split; auto).
  assert (NC0 : (0 <? nc) = true) by (apply Nat.ltb_lt; exact Pc).
  assert (STEP : forall b run p, shape n no nc I p -> exists q, execute (random_search point) run b p = Ok q /\ shape n no nc I q /\
            evaluations (head q) = (evaluations (head p) + b)%N /\ evaluations_constraints (head q) = (evaluations_constraints (head p) + b)%N).
  { intros b run p' S'. pose proof S' as (_ & _ & N' & _). destruct (search_counts n nc point PT run b p' N') as (Z & A & Cc & D).
    destruct (execute_any n no nc I NF Pn Po (random_search point) run b p' S' Z D) as (q' & E & S1 & F & G).
    rewrite NC0 in Cc. rewrite A in F. rewrite Cc in G. exists q'. repeat split; try assumption; try apply S1; lia. }
  set (k := Datatypes.S R) in H. cbn [c_runs] in H. rewrite unused_not_hit in H by exact U. rewrite (unused_total C p U) in H. cbn [bind andb orb] in H.
  change (w64 0) with 0%N in H. rewrite N.sub_0_r in H.
  assert (W1 : w64 (B + 2 ^ 64) = B).
  { unfold w64. replace (B + 2 ^ 64)%N with (B + 1 * 2 ^ 64)%N by lia. rewrite N.mod_add by discriminate. exact WB. }
  rewrite W1 in H. destruct (N.eqb_spec B 0); [lia|]. destruct (STEP B 1 p S) as (q1 & E1 & S1 & F1 & G1). rewrite E1 in H. cbn [bind] in H.
  destruct U as [U1 U2]. destruct (N.eqb_spec (evaluations (head q1)) 0); [lia|]. destruct (N.ltb_spec (evaluations (head q1)) 0); [lia|].
  apply bind_Ok in H as [[l1 r1] [H H']]. injection H' as _ ->. unfold k in H. cbn [c_runs] in H.
  apply bind_Ok in H as [h [_ H]].
  assert (T1 : total_evaluations q1 = (2 * B)%N) by (unfold total_evaluations; lia). rewrite T1 in H.
  assert (W2 : w64 (2 * B) = (2 * B)%N) by (unfold w64; apply N.mod_small; change (2 ^ 64)%N with 18446744073709551616%N; lia). rewrite W2 in H.
  assert (W3 : w64 (B + 2 ^ 64 - 2 * B) = (2 ^ 64 - B)%N).
  { unfold w64. replace (B + 2 ^ 64 - 2 * B)%N with (2 ^ 64 - B)%N by lia. apply N.mod_small. change (2 ^ 64)%N with 18446744073709551616%N. lia. }
  rewrite W3 in H. pose proof S1 as (_ & _ & N1 & _). destruct (Nat.eqb_spec (number_of_constraints (head q1)) 0); [lia|]. rewrite andb_false_r in H. cbn [orb] in H.
  change (2 ^ 64)%N with 18446744073709551616%N in H.
  destruct (N.eqb_spec (18446744073709551616 - B) 0); [lia|].
  destruct (STEP (18446744073709551616 - B)%N 2 q1 S1) as (q2 & E2 & S2 & F2 & G2). rewrite E2 in H. cbn [bind] in H.
  destruct (N.eqb_spec (evaluations (head q2)) (2 * B)); [lia|]. destruct (N.ltb_spec (evaluations (head q2)) (2 * B)); [lia|].
  apply bind_Ok in H as [[l2 r2] [H H']]. injection H' as _ <-.
  pose proof (c_runs_grow C n no nc I (random_search point) B NF Pn Po SZ R 3 q2 l2 r2 S2 H). lia.
Qed.
(** The random search of Rust makes one evaluation more than allowed. *)
Theorem C92_one_more_refuted : forall (C : class) no (I : data C -> Prop) (p : problem C) initial point m R, let n := number_of_variables (head p) in
  let B := (N.of_nat n * m)%N in
  never_fails C n no 0 I -> 0 < n -> 0 < no -> number_of_objectives (head p) = no -> number_of_constraints (head p) = 0 -> I (body p) ->
  has_best_value (head p) -> unused p -> (0 < B)%N -> (forall run i, length (point run i) = n /\ regular (point run i)) ->
  length initial = n -> regular initial -> 0 < R ->
  exists l q, rust_experiment (rust_random_search initial point) m R p = Ok (l, q) /\ evaluations (head q) = (B + 1)%N.
Proof.
  intros C no I p initial point m R n B NF Pn Po O Nc Ib HB U PB PT Li Ri PR. unfold rust_experiment.
  rewrite (proj2 (dimension_ok (head p) n)) by (split; [reflexivity|exact Pn]). cbn [bind]. fold B.
  destruct (search_counts n 0 point PT 1 B p Nc) as (Z & A & Cc & D).
  destruct (execute_any n no 0 I NF Pn Po (rust_random_search initial point) 1 B p) as (q & E & S & F & G).
  { repeat split; auto. }
  { unfold rust_random_search. constructor; [exact Li|exact Z]. }
  { intros E x [K|K]; [discriminate K|exact (D E x K)]. }
  assert (A' : counted_evaluations (rust_random_search initial point 1 B p) = Datatypes.S (N.to_nat B)).
  { unfold rust_random_search, counted_evaluations in *. cbn [filter]. rewrite (proj2 (regularb_spec initial) Ri). cbn [length]. rewrite A. reflexivity. }
  rewrite A' in F. destruct R as [|R]; [lia|]. cbn [rust_runs]. rewrite unused_not_hit, unused_total by exact U. cbn [bind orb]. rewrite N.sub_0_r.
  destruct (N.eqb_spec B 0); [lia|]. rewrite E. cbn [bind].
  assert (TQ : (B - total_evaluations q = 0)%N) by (unfold total_evaluations; lia).
  assert (J : rust_runs (rust_random_search initial point) B R 2 q = Ok ([], q)).
  { destruct R as [|R]; cbn [rust_runs]; [reflexivity|]. rewrite TQ. destruct (target_ok n no 0 I q S) as [h Hh]. rewrite Hh. cbn [bind].
    rewrite orb_true_r. reflexivity. }
  rewrite J. cbn [bind]. eexists. exists q. split; [reflexivity|]. destruct U as [U1 U2]. lia.
Qed.

(** ** Constraints and restarts in C and Java *)
(** The number of function evaluations is compared with that of all evaluations: an algorithm that keeps its budget and always evaluates may
    end the whole process (C), make Java complain, or be stopped early with a warning. *)
Definition greedy {C} (k : nat) : algorithm C := fun _ b _ =>
  if (N.of_nat k <? b)%N then repeat (Constrain [dint 3]) k ++ [Evaluate [dint 3]] else if (0 <? b)%N then [Evaluate [dint 3]] else [].
Lemma greedy_ok : forall C k nc, 0 < nc -> keeps_budget (C:=C) 1 nc (greedy k) /\ evaluates (C:=C) nc (greedy k).
Proof.
  intros C k nc P. assert (RB : regularb [dint 3] = true) by (vm_compute; reflexivity).
  assert (CE : forall k, counted_evaluations (repeat (Constrain [dint 3]) k ++ [Evaluate [dint 3]]) = 1).
  { unfold counted_evaluations. induction k0 as [|j IH]; cbn [repeat app filter]; [rewrite RB; reflexivity|exact IH]. }
  assert (CC : forall k, counted_constraints (repeat (Constrain [dint 3]) k ++ [Evaluate [dint 3]]) = k).
  { unfold counted_constraints. induction k0 as [|j IH]; cbn [repeat app filter]; [reflexivity|rewrite RB; cbn [length]; congruence]. }
  split; intros run b p N.
  - unfold greedy. destruct (N.ltb_spec (N.of_nat k) b).
    + split; [|split; [intros ->; lia|rewrite CE, CC; lia]]. apply Forall_app. split; [|repeat constructor]. apply Forall_forall. intros c K. apply repeat_spec in K as ->. reflexivity.
    + destruct (N.ltb_spec 0 b); (split; [repeat constructor|split; [intros ->; lia|]]).
      * pose proof (CE 0) as E. pose proof (CC 0) as E'. cbn [repeat app] in E, E'. rewrite E, E'. lia.
      * cbn. lia.
  - intros L. unfold greedy. destruct (N.ltb_spec (N.of_nat k) b); [rewrite CE; lia|]. destruct (N.ltb_spec 0 b); [|lia].
    pose proof (CE 0) as E. cbn [repeat app] in E. rewrite E. lia.
Qed.
Definition count_events {C} (f : event C -> bool) (r : res (list (event C) * problem C)) : option (nat * N) :=
  match r with Ok (l, q) => Some (length (filter f l), total_evaluations q) | _ => None end.
Theorem C92_constrained_refuted : exists alg2 alg1 : algorithm ProbProps.square,
  let p := ProbProps.square_problem 1 in
  keeps_budget 1 1 alg2 /\ evaluates 1 alg2 /\ keeps_budget 1 1 alg1 /\ evaluates 1 alg1 /\
  c_experiment alg2 20 9 p = Err /\
  (exists l q, java_experiment alg2 20 9 p = Ok (l, q) /\ In Complaint l) /\
  (exists l q, c_experiment alg1 20 9 p = Ok (l, q) /\ In Warning l /\ runs_of l = 2 /\ total_evaluations q = 4%N).
Proof.
  exists (greedy 2), (greedy 1). cbv zeta. destruct (greedy_ok ProbProps.square 2 1) as [A B]; [lia|]. destruct (greedy_ok ProbProps.square 1 1) as [D E]; [lia|].
  split; [exact A|]. split; [exact B|]. split; [exact D|]. split; [exact E|]. split.
  - destruct (c_experiment (greedy 2) 20 9 (ProbProps.square_problem 1)) as [r| |] eqn:X; [|reflexivity|]; exfalso.
    + assert (K : match c_experiment (greedy 2) 20 9 (ProbProps.square_problem 1) with Err => true | _ => false end = true) by (vm_compute; reflexivity).
      rewrite X in K. discriminate K.
    + assert (K : match c_experiment (greedy 2) 20 9 (ProbProps.square_problem 1) with Err => true | _ => false end = true) by (vm_compute; reflexivity).
      rewrite X in K. discriminate K.
  - split.
    + assert (K : match java_experiment (greedy 2) 20 9 (ProbProps.square_problem 1) with
                  | Ok (l, _) => existsb (fun e => match e with Complaint => true | _ => false end) l | _ => false end = true) by (vm_compute; reflexivity).
      destruct (java_experiment (greedy 2) 20 9 (ProbProps.square_problem 1)) as [[l q]| |]; try discriminate K.
      exists l, q. split; [reflexivity|]. apply existsb_exists in K as (e & K & T). destruct e; try discriminate T. exact K.
    + assert (K : match c_experiment (greedy 1) 20 9 (ProbProps.square_problem 1) with
                  | Ok (l, q) => existsb (fun e => match e with Warning => true | _ => false end) l && (runs_of l =? 2) && (total_evaluations q =? 4)%N
                  | _ => false end = true) by (vm_compute; reflexivity).
      destruct (c_experiment (greedy 1) 20 9 (ProbProps.square_problem 1)) as [[l q]| |]; try discriminate K.
      exists l, q. split; [reflexivity|]. apply andb_true_iff in K as [K K3]. apply andb_true_iff in K as [K1 K2].
      apply existsb_exists in K1 as (e & K & T). destruct e; try discriminate T. apply Nat.eqb_eq in K2. apply N.eqb_eq in K3. auto.
Qed.
(** The restarted algorithm on a problem with a variable and a constraint, in MATLAB: eight runs use the budget of 20 *)
Example C92_example : let p := ProbProps.square_problem 1 in
  never_fails ProbProps.square 1 1 1 (fun _ => True) /\ has_best_value (head p) /\ unused p /\
  keeps_budget (C:=ProbProps.square) 1 1 (greedy 2) /\ evaluates (C:=ProbProps.square) 1 (greedy 2) /\
  count_events is_run (matlab_experiment (greedy 2) 20 9 p) = Some (8, 20%N) /\
  (forall run i : nat, length [dint 3] = 1 /\ regular [dint 3]).
Proof.
  cbv zeta. split; [exact ProbProps.square_never_fails|]. split; [intros v H; injection H as <-; discriminate|]. split; [split; reflexivity|].
  destruct (greedy_ok ProbProps.square 2 1) as [A B]; [lia|]. split; [exact A|]. split; [exact B|]. split; [vm_compute; reflexivity|].
  intros _ _. split; [reflexivity|]. apply regularb_spec. vm_compute. reflexivity.
Qed.

Print Assumptions C92_c.
Print Assumptions C92_java.
Print Assumptions C92_matlab.
Print Assumptions C92_rust.
Print Assumptions C92_search.
Print Assumptions C92_twice_refuted.
Print Assumptions C92_endless_refuted.
Print Assumptions C92_one_more_refuted.
Print Assumptions C92_constrained_refuted.
