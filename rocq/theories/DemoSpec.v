(** Specification of an experiment on one problem with a budget and restarts. *)
From Coq Require Import List Arith NArith Bool.
Import ListNotations.
From Verif Require Import CBase DblModel ProbModel ProbSpec DemoModel.

(** An algorithm that keeps its budget: its calls have the right number of variables, constraints are only evaluated if there are any,
    and the function and constraint evaluations that count are together at most the budget. *)
Definition keeps_budget {C} (n nc : nat) (alg : algorithm C) : Prop :=
  forall run b p, number_of_constraints (head p) = nc ->
    sized n (alg run b p) /\ (nc = 0%nat -> forall x, ~ In (Constrain x) (alg run b p)) /\
    (N.of_nat (counted_evaluations (alg run b p) + counted_constraints (alg run b p)) <= b)%N.
(** It evaluates the function at least once if it may. *)
Definition evaluates {C} (nc : nat) (alg : algorithm C) : Prop :=
  forall run b p, number_of_constraints (head p) = nc -> (0 < b)%N -> (0 < counted_evaluations (alg run b p))%nat.
(** A problem as the suite hands it out *)
Definition unused {C} (p : problem C) : Prop := evaluations (head p) = 0%N /\ evaluations_constraints (head p) = 0%N.
Definition has_best_value (h : header) : Prop := forall v, best_value h = Some v -> v <> [].

Definition hit {C} (p : problem C) : Prop := coco_problem_final_target_hit (head p) = Ok true.
(** Runs are started with what is left of the budget B, which is not nothing, and not after the final target was hit. *)
Definition run_ok {C} (B : N) (e : event C) : Prop :=
  match e with Run p b => ~ hit p /\ (0 < b)%N /\ (total_evaluations p + b = B)%N | _ => True end.
Definition is_run {C} (e : event C) : bool := match e with Run _ _ => true | _ => false end.
Definition runs_of {C} (l : list (event C)) : nat := List.length (filter is_run l).
(** Each run is announced to the observer directly before. *)
Fixpoint announced {C} (l : list (event C)) : Prop :=
  match l with
  | [] => True
  | Signal :: Run _ _ :: l' => announced l'
  | Signal :: _ => False
  | Run _ _ :: _ => False
  | _ :: l' => announced l'
  end.
(** An experiment with budget B and at most M runs that ends in q *)
Definition sound {C} (B : N) (M : nat) (l : list (event C)) (q : problem C) : Prop :=
  (total_evaluations q <= B)%N /\ (runs_of l <= M)%nat /\ Forall (run_ok B) l /\ ~ In Complaint l.
(** All of the budget is used: it ends because the target is hit, the budget is exhausted, or with the last run. *)
Definition complete {C} (B : N) (M : nat) (l : list (event C)) (q : problem C) : Prop :=
  hit q \/ total_evaluations q = B \/ runs_of l = M.
