(** What the observer should see when a budget-dependent solver is run for several budgets. *)
From Coq Require Import List Arith Bool.
From Verif Require Import PyAnyModel.
Import ListNotations.
Local Open Scope nat_scope.

Section Spec.
Variables (X V : Type) (f : X -> V) (best : list X -> V) (differs : V -> V -> bool).

(** The observed solutions: a run contributes its evaluations from the first unobserved position on, and its result if
    that has another value than the best one observed. *)
Definition after_run (obs : list X) (r : run X) : list X :=
  let obs' := obs ++ skipn (length obs) (evaluated X r) in
  if differs (f (returned X r)) (best obs') then obs' ++ [returned X r] else obs'.

(** The numbers of evaluations of the runs increase, from [n] on. *)
Fixpoint increasing (n : nat) (rs : list (run X)) : Prop :=
  match rs with
  | [] => True
  | r :: rs' => n <= length (evaluated X r) /\ increasing (S (length (evaluated X r))) rs'
  end.
End Spec.
