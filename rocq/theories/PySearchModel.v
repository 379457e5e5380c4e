(** Model of solvers.random_search, build/python/src/cocoex/solvers.py 6-30.  The random numbers are an infinite sequence of rows;
    the problem is a function of the decision vector and of the former calls (so that noisy problems are included). *)
From Coq Require Import List Arith NArith ZArith Bool.
From Verif Require Import CBase DblModel.
Import ListNotations.
Local Open Scope nat_scope.

(** What is used of the problem.  [value] is the first objective value, the only one that is used if there is one objective. *)
Record problem_view := mk_problem {
  number_of_constraints : nat;
  number_of_objectives : nat;
  value : list (list double) -> list double -> double;
  constraint : list double -> list double
}.

(** np.argmin of a list that is not empty: the position of the first NaN, otherwise of the first smallest value. *)
Fixpoint argmin_from (best : nat) (v : double) (i : nat) (l : list double) : nat :=
  match l with
  | [] => best
  | w :: l' => if coco_is_nan v then best
               else if coco_is_nan w || dlt w v then argmin_from i w (S i) l' else argmin_from best v (S i) l'
  end.
Definition argmin (l : list double) : nat := match l with [] => 0 | v :: l' => argmin_from 0 v 1 l' end.

(** Line 18: lbounds + (ubounds - lbounds) * random row *)
Definition point (lower upper r : list double) : list double :=
  map (fun p => dadd (fst (fst p)) (dmul (dsub (snd (fst p)) (fst (fst p))) (snd p))) (combine (combine lower upper) r).

(** Lines 13-15: the quotient 4e4 / dim and the sum are taken to be exact (their integer part is) *)
Definition chunk_size (dim : nat) (budget : Z) : Z := Z.max 1 (Z.min budget (1 + 40000 / Z.of_nat dim)).

(** Calls of the problem so far (newest last), number of calls of constraint, x_min and f_min *)
Record search := mk_search {
  history : list (list double);
  constraint_calls : nat;
  x_min : option (list double);
  f_min : option double
}.

(** Lines 20 and 24: call the problem with all points *)
Fixpoint call_all (P : problem_view) (h : list (list double)) (X : list (list double)) : list double :=
  match X with [] => [] | x :: X' => value P h x :: call_all P (h ++ [x]) X' end.
(** Line 21: values of the points without positive (or undefined) constraint *)
Definition feasible_values (P : problem_view) (X : list (list double)) (F : list double) : list double :=
  map snd (filter (fun p => forallb (fun c => dle c dzero) (constraint P (fst p))) (combine X F)).

(** Lines 25-28 *)
Definition better (X : list (list double)) (F : list double) (x_min : option (list double)) (f_min : option double)
    : option (list double) * option double :=
  match F with
  | [] => (x_min, f_min)
  | _ => let i := argmin F in let v := nth i F dzero in
         if match f_min with None => true | Some w => dlt v w end then (Some (nth i X []), Some v) else (x_min, f_min)
  end.

(** Lines 16-29: one pass of the loop with the points X *)
Definition pass (P : problem_view) (X : list (list double)) (s : search) : search :=
  let A := call_all P (history s) X in
  let F := if 0 <? number_of_constraints P then feasible_values P X A else A in
  let '(x, v) := if number_of_objectives P =? 1 then better X F (x_min s) (f_min s) else (x_min s, f_min s) in
  mk_search (history s ++ X) (constraint_calls s + if 0 <? number_of_constraints P then length X else 0) x v.

(** Line 22 and line 29 *)
Definition cost (P : problem_view) (chunk : Z) : Z := if 0 <? number_of_constraints P then (2 * chunk)%Z else chunk.

(** The loop; [rows k] is the k-th row of random numbers.  Every pass lowers the budget, so that [fuel] = budget is enough. *)
Fixpoint loop (fuel : nat) (P : problem_view) (lower upper : list double) (rows : nat -> list double) (budget : Z) (s : search)
    : search :=
  match fuel with
  | O => s
  | S fuel' =>
      if (budget <=? 0)%Z then s else
      let chunk := chunk_size (length lower) budget in
      let first := length (history s) in
      let X := map (fun k => point lower upper (rows k)) (seq first (Z.to_nat chunk)) in
      loop fuel' P lower upper rows (budget - cost P chunk)%Z (pass P X s)
  end.
Definition random_search (P : problem_view) (lower upper : list double) (budget : Z) (rows : nat -> list double) : search :=
  loop (Z.to_nat budget) P lower upper rows budget (mk_search [] 0 None None).
