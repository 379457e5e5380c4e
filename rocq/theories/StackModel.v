(** Bi-objective problems made of two noiseless functions: ideal and nadir point, and the test whether two instances are
    too close to each other (src/coco_problem.c, src/suite_biobj_utilities.c, src/suite_biobj.c).

    Conventions as in FunModel.v; the numbering of the functions and the search for instances are those of PairModel.v.
    Not modelled: identifiers, names, types, counters. *)

From Coq Require Import ZArith NArith List Bool.
From Verif Require Import CBase FunModel PairModel.
Import ListNotations.

Section Stack.
Variable A : arith.
Notation T := (num A).
Notation problem := (problem A).
Local Notation L := (lit A).

Record bi_problem := {
  bi_dimension : nat;
  bi_evaluate : list T -> list T;
  ideal_value : list T;
  nadir_value : list T;
  bi_smallest : list T;
  bi_largest : list T }.

(** coco_problem.c:887-913, 969-1043 for two problems with one objective each and no constraint.  The parameter of best
    value is left uninitialised and not used. *)
Definition stacked_allocate (problem1 problem2 : problem) (smallest_values largest_values : list T) : bi_problem :=
  {| bi_dimension := dimension A problem1;
     bi_evaluate := fun x => [evaluate A problem1 x; evaluate A problem2 x];
     ideal_value := [best_value A problem1; best_value A problem2];
     nadir_value := [evaluate A problem1 (best_parameter A problem2); evaluate A problem2 (best_parameter A problem1)];
     bi_smallest := smallest_values; bi_largest := largest_values |}.

(** mo_utilities.c:30-40 *)
Definition mo_get_norm (first second : list T) (dim : nat) : T :=
  sqrt A (loop dim (fun i norm => add A norm (pow A (sub A (at_ A first i) (at_ A second i)) (L 2 0))) (zero A)).

(** The random draws of a function and instance in a dimension *)
Variable draws_of : N -> N -> N -> draws A.

(** suite_bbob.c:85-192 *)
Definition get_bbob (dimension function instance : N) : option problem :=
  get_bbob_problem A (N.to_nat function) (N.to_nat dimension) false (draws_of dimension function instance).

(** suite_biobj_utilities.c:66-113 suite_biobj_check_inst_consistency; the functions 1 to 24 always exist *)
Definition check_inst_consistency (dimension function1 instance1 function2 instance2 : N) : bool :=
  match get_bbob dimension function1 instance1, get_bbob dimension function2 instance2 with
  | Some problem1, Some problem2 =>
    let problem := stacked_allocate problem1 problem2
      (repeat (L (-100) 0) (N.to_nat dimension)) (repeat (L 100 0) (N.to_nat dimension)) in
    let break_search := lt A (mo_get_norm (ideal_value problem) (nadir_value problem) 2) (L 1 1) in
    if lt A (mo_get_norm (best_parameter A problem1) (best_parameter A problem2) (bi_dimension problem)) (L 1 4) then true
    else break_search
  | _, _ => true
  end.

(** suite_biobj_utilities.c:240-476 coco_get_biobj_problem with coco_get_bbob_problem, as called by
    suite_biobj.c:76-95 *)
Definition get_biobj_problem (function dimension instance : N) (dimensions : list N) : res bi_problem :=
  do (function1, function2) <- base_functions function;
  do (instance1, instance2) <- base_instances check_inst_consistency instance dimensions;
  match get_bbob dimension function1 instance1, get_bbob dimension function2 instance2 with
  | Some problem1, Some problem2 =>
    Ok (stacked_allocate problem1 problem2
          (repeat (L (-100) 0) (N.to_nat dimension)) (repeat (L 100 0) (N.to_nat dimension)))
  | _, _ => Err
  end.

End Stack.
