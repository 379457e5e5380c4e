(** What the ideal and the nadir point of a bi-objective problem have to satisfy. *)

From Coq Require Import ZArith NArith List Bool Reals.
From Verif Require Import CBase FunModel FunSpec FunDocSpec StackModel.
Import ListNotations.
Local Open Scope R_scope.

Definition real_bi := bi_problem real_arith.

(** Vectors of two values *)
Definition first (y : list R) : R := nth 0 y 0.
Definition second (y : list R) : R := nth 1 y 0.

(** Pareto dominance (minimisation) *)
Definition dominates (y z : list R) : Prop :=
  first y <= first z /\ second y <= second z /\ (first y < first z \/ second y < second z).

(** No point of the search space dominates x. *)
Definition efficient (n : nat) (p : real_bi) (x : list R) : Prop :=
  length x = n /\ forall x', length x' = n -> ~ dominates (bi_evaluate _ p x') (bi_evaluate _ p x).

(** The reported value of the Schwefel function may be 3e-15 too large. *)
Definition slack (function : N) : R := if N.eqb function 20 then 3 / 10 ^ 15 else 0.

(** The two objectives are the published functions for the drawn locations and rotations. *)
Definition objectives (n : nat) (p : real_bi) (a : N) (d : real_draws) (b : N) (e : real_draws) : Prop :=
  forall x, length x = n ->
    bi_evaluate _ p x = [documented n (N.to_nat a) false d (coord x) + fopt _ d;
                         documented n (N.to_nat b) false e (coord x) + fopt _ e].

Definition distance (n : nat) (x y : list R) : R := R_sqrt.sqrt (total n (fun i => (coord x i - coord y i) ^ 2)).
