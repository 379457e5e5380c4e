(** Model of ProblemNonAnytime, build/python/src/cocoex/utilities.py 249-366: benchmarking a solver whose behaviour
    depends on the budget by running it anew for each budget of an increasing list. *)
From Coq Require Import List Arith Bool.
Import ListNotations.
Local Open Scope nat_scope.

Section NonAnytime.
(** Solutions, objective values, the objective function of the problem (the same for the observed and the unobserved
    problem; the noisy suite is not covered), best_observed_fvalue1 of a problem as a function of the solutions it
    evaluated, and Python's != on values (true for NaN and NaN). *)
Variables (X V : Type) (f : X -> V) (best : list X -> V) (differs : V -> V -> bool).

(** Lines 285-293: the solutions evaluated by p_observed and by p_unobserved, whether _p is p_observed, and the attribute
    evaluations. *)
Record state := mk_state { observed : list X; unobserved : list X; on_observed : bool; evaluations : nat }.
Definition initial : state := mk_state [] [] true 0.

(** Lines 295-303: __call__; [None] is the ValueError. *)
Definition call (st : state) (x : X) : option (V * state) :=
  if length (observed st) <? evaluations st then None else
  let p := if length (observed st) <=? evaluations st then true else on_observed st in
  Some (f x, if p then mk_state (observed st ++ [x]) (unobserved st) p (evaluations st + 1)
             else mk_state (observed st) (unobserved st ++ [x]) p (evaluations st + 1)).

(** Lines 305-331: delivered, with reset; [None] is the ValueError. *)
Definition delivered (st : state) (x : X) : option state :=
  if evaluations st <? length (observed st) then None else
  let obs := if differs (f x) (best (observed st)) then observed st ++ [x] else observed st in
  Some (mk_state obs (unobserved st ++ [x]) false 0).

(** A run of the solver: the solutions it evaluates and the solution it returns. *)
Record run := mk_run { evaluated : list X; returned : X }.

Fixpoint calls (st : state) (xs : list X) : option (list V * state) :=
  match xs with
  | [] => Some ([], st)
  | x :: xs' => match call st x with
                | None => None
                | Some (v, st1) => match calls st1 xs' with None => None | Some (vs, st2) => Some (v :: vs, st2) end
                end
  end.

(** The loop of the documentation, lines 257-264, over the given runs; final_target_hit only shortens it. *)
Definition one_run (st : state) (r : run) : option state :=
  match calls st (evaluated r) with None => None | Some (_, st1) => delivered st1 (returned r) end.
Fixpoint runs (st : state) (rs : list run) : option state :=
  match rs with
  | [] => Some st
  | r :: rs' => match one_run st r with None => None | Some st1 => runs st1 rs' end
  end.
End NonAnytime.
