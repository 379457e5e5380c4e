(** Model of the example experiments that come with the library and are the template of most experiments: the loop of independent runs
    on one problem and the random search, in build/c/example_experiment.c, build/java/ExampleExperiment.java,
    build/matlab/exampleexperiment.m (with my_optimizer.m) and build/rust/examples/example-experiment.rs.  The problems are those of
    ProbModel.v.  Timing and output of other messages are left out; the loop over the problems of a suite is in LoopModel.v. *)
From Coq Require Import List Arith NArith ZArith Bool.
Import ListNotations.
From Verif Require Import CBase DblModel ProbModel.
Local Open Scope nat_scope.

Definition total_evaluations {C} (p : problem C) : N := (evaluations (head p) + evaluations_constraints (head p))%N.

(** An algorithm: the calls it makes in run number [run] with the given budget, on a problem in a given state (what it does may depend on
    everything it sees, which is determined by the state of the problem, and on its own random numbers) *)
Definition algorithm (C : class) := nat -> N -> problem C -> list call.
Definition execute {C} (alg : algorithm C) (run : nat) (budget : N) (p : problem C) : res (problem C) :=
  do (_, q) <- session p (alg run budget p); Ok q.

(** What can be seen of the loop: the restart signalled to the observer, the algorithm called with a budget when the problem was in a
    state, the warning that the budget has not been exhausted, the message that evaluations decreased *)
Inductive event (C : class) := Signal | Run (p : problem C) (budget : N) | Warning | Complaint.
Arguments Signal {C}.
Arguments Run {C}.
Arguments Warning {C}.
Arguments Complaint {C}.

(** example_experiment.c 189-229: [k] runs are left; evaluations_done and evaluations_remaining are uint64_t, computed modulo 2^64;
    [budget] is dimension * BUDGET_MULTIPLIER, [k] starts as 1 + INDEPENDENT_RESTARTS *)
Definition w64 (v : N) : N := (v mod 2 ^ 64)%N.
Fixpoint c_runs {C} (alg : algorithm C) (budget : N) (k run : nat) (p : problem C) : res (list (event C) * problem C) :=
  match k with
  | O => Ok ([], p)
  | S k' =>
    let evaluations_done := w64 (total_evaluations p) in
    let evaluations_remaining := w64 (budget + 2 ^ 64 - evaluations_done) in
    do hit <- coco_problem_final_target_hit (head p);
    if (hit && (number_of_constraints (head p) =? 0)%nat) || (evaluations_remaining =? 0)%N then Ok ([], p)
    else
      do q <- execute alg run evaluations_remaining p;
      if (evaluations (head q) =? evaluations_done)%N then Ok ([Signal; Run p evaluations_remaining; Warning], q)
      else if (evaluations (head q) <? evaluations_done)%N then Err
      else do (l, r) <- c_runs alg budget k' (S run) q; Ok (Signal :: Run p evaluations_remaining :: l, r)
  end.
(** Line 187 and the loop; the product is computed modulo 2^64 *)
Definition c_experiment {C} (alg : algorithm C) (multiplier : N) (restarts : nat) (p : problem C) : res (list (event C) * problem C) :=
  do dimension <- coco_problem_get_dimension (head p);
  c_runs alg (w64 (N.of_nat dimension * multiplier)) (1 + restarts) 1 p.

(** ExampleExperiment.java 127-160: the numbers are long (64 bits with a sign; their overflow is not modelled) *)
Fixpoint java_runs {C} (alg : algorithm C) (budget : Z) (k run : nat) (p : problem C) : res (list (event C) * problem C) :=
  match k with
  | O => Ok ([], p)
  | S k' =>
    let evaluationsDone := Z.of_N (total_evaluations p) in
    let evaluationsRemaining := (budget - evaluationsDone)%Z in
    do hit <- coco_problem_final_target_hit (head p);
    if hit || (evaluationsRemaining <=? 0)%Z then Ok ([], p)
    else
      do q <- execute alg run (Z.to_N evaluationsRemaining) p;
      if (Z.of_N (evaluations (head q)) =? evaluationsDone)%Z then Ok ([Signal; Run p (Z.to_N evaluationsRemaining); Warning], q)
      else
        let m := if (Z.of_N (evaluations (head q)) <? evaluationsDone)%Z then [Complaint] else [] in
        do (l, r) <- java_runs alg budget k' (S run) q; Ok (Signal :: Run p (Z.to_N evaluationsRemaining) :: m ++ l, r)
  end.
Definition java_experiment {C} (alg : algorithm C) (multiplier : N) (restarts : nat) (p : problem C) : res (list (event C) * problem C) :=
  do dimension <- coco_problem_get_dimension (head p);
  java_runs alg (Z.of_N (N.of_nat dimension * multiplier)) (1 + restarts) 1 p.

(** exampleexperiment.m 90-131; [k] is NUM_OF_INDEPENDENT_RESTARTS - i at the end of the loop plus 1 (the saturation of int32 is not
    modelled) *)
Fixpoint matlab_runs {C} (alg : algorithm C) (budget : N) (k run : nat) (p : problem C) : res (list (event C) * problem C) :=
  match k with
  | O => Ok ([], p)
  | S k' =>
    if negb (total_evaluations p <? budget)%N then Ok ([], p)
    else
      let doneEvalsBefore := total_evaluations p in
      let remaining := (budget - doneEvalsBefore)%N in
      do q <- execute alg run remaining p;
      let doneEvalsAfter := total_evaluations q in
      do hit <- coco_problem_final_target_hit (head q);
      if hit || (budget <=? doneEvalsAfter)%N then Ok ([Signal; Run p remaining], q)
      else if (doneEvalsAfter =? doneEvalsBefore)%N then Ok ([Signal; Run p remaining; Warning], q)
      else
        let m := if (doneEvalsAfter <? doneEvalsBefore)%N then [Complaint] else [] in
        do (l, r) <- matlab_runs alg budget k' (S run) q; Ok (Signal :: Run p remaining :: m ++ l, r)
  end.
Definition matlab_experiment {C} (alg : algorithm C) (multiplier : N) (restarts : nat) (p : problem C) : res (list (event C) * problem C) :=
  do dimension <- coco_problem_get_dimension (head p);
  matlab_runs alg (N.of_nat dimension * multiplier) (1 + restarts) 1 p.

(** example-experiment.rs 37-48: no restart is signalled; the loop is 1..=INDEPENDENT_RESTARTS *)
Fixpoint rust_runs {C} (alg : algorithm C) (budget : N) (k run : nat) (p : problem C) : res (list (event C) * problem C) :=
  match k with
  | O => Ok ([], p)
  | S k' =>
    let evaluations_remaining := (budget - total_evaluations p)%N in
    do hit <- coco_problem_final_target_hit (head p);
    if hit || (evaluations_remaining =? 0)%N then Ok ([], p)
    else
      do q <- execute alg run evaluations_remaining p;
      do (l, r) <- rust_runs alg budget k' (S run) q; Ok (Run p evaluations_remaining :: l, r)
  end.
Definition rust_experiment {C} (alg : algorithm C) (multiplier : N) (restarts : nat) (p : problem C) : res (list (event C) * problem C) :=
  do dimension <- coco_problem_get_dimension (head p);
  rust_runs alg (N.of_nat dimension * multiplier) restarts 1 p.

(** The random searches: the i-th point of a run is an argument (in C the first one is the initial solution).
    example_experiment.c 262-307, ExampleExperiment.java 180-210, my_optimizer.m *)
Definition random_search {C} (point : nat -> nat -> list double) : algorithm C := fun run budget p =>
  flat_map (fun i => (if (0 <? number_of_constraints (head p))%nat then [Constrain (point run i)] else []) ++ [Evaluate (point run i)])
           (seq 0 (N.to_nat budget)).
(** example-experiment.rs 51-81: the initial solution is evaluated in addition *)
Definition rust_random_search {C} (initial : list double) (point : nat -> nat -> list double) : algorithm C := fun run budget p =>
  Evaluate initial :: random_search point run budget p.
