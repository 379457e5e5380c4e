(** Model of the problem objects of src/coco_problem.c and of coco_is_feasible. *)
From Coq Require Import List Arith NArith ZArith Bool.
From Flocq Require Import BinarySingleNaN.
Import ListNotations.
From Verif Require Import CBase DblModel.

(** src/coco_internal.h:136-196, the fields common to all problems that the code below uses.  The
    counters are not bounded (a size_t wraps after 2^64 evaluations).  Regions of interest, names and
    the suite-dependent fields are not part of this record; last_noise_free_values and data belong to
    the class (see below). *)
Record header := {
  number_of_variables : nat;
  number_of_objectives : nat;
  number_of_constraints : nat;
  number_of_integer_variables : nat;
  is_opt_known : bool;
  best_value : option (list double);          (* NULL or number_of_objectives values *)
  best_parameter : option (list double);
  is_tainted : bool;
  evaluations : N;
  evaluations_constraints : N;
  final_target_delta : double;
  best_observed_fvalue : double;
  best_observed_evaluation : N }.

Definition with_counters (h : header) (e ec : N) (v : double) (ve : N) : header :=
  {| number_of_variables := number_of_variables h; number_of_objectives := number_of_objectives h;
     number_of_constraints := number_of_constraints h;
     number_of_integer_variables := number_of_integer_variables h;
     is_opt_known := is_opt_known h; best_value := best_value h; best_parameter := best_parameter h;
     is_tainted := is_tainted h; evaluations := e; evaluations_constraints := ec;
     final_target_delta := final_target_delta h; best_observed_fvalue := v;
     best_observed_evaluation := ve |}.

(** A kind of problem: the function pointers of the structure and the type of what its data field
    points to.  The functions may read the other fields of the problem (the header) and change the
    data.  They write into the vector given by the caller, here they return the values written.
    last_noise_free is None if is_noisy is 0, else the field last_noise_free_values, which only the
    evaluate function of the same problem writes. *)
Record class := {
  data : Type;
  evaluate_function : header -> data -> list double -> res (list double * data);
  evaluate_constraint : option (header -> data -> list double -> bool -> res (list double * data));
  recommend_solution : option (header -> data -> list double -> res data);
  last_noise_free : data -> option (list double) }.

Record problem (C : class) := { head : header; body : data C }.
Arguments head {C}.
Arguments body {C}.

Definition set_head {C} (p : problem C) (h : header) : problem C := {| head := h; body := body p |}.
Definition set_body {C} (p : problem C) (d : data C) : problem C := {| head := head p; body := d |}.

(** Lines 524-528; the assertion number_of_variables > 0 *)
Definition coco_problem_get_dimension (h : header) : res nat :=
  if (number_of_variables h =? 0)%nat then UB else Ok (number_of_variables h).

(** Lines 39-47: the first infinite entry among the first n *)
Fixpoint first_inf (n : nat) (x : list double) : res (option double) :=
  match n with
  | O => Ok None
  | S n' => match x with
            | [] => UB
            | v :: x' => if coco_is_inf v then Ok (Some v) else first_inf n' x'
            end
  end.

(** src/coco_utilities.c:1006-1013 *)
Fixpoint coco_vector_contains_nan (n : nat) (x : list double) : res bool :=
  match n with
  | O => Ok false
  | S n' => match x with
            | [] => UB
            | v :: x' => if coco_is_nan v then Ok true else coco_vector_contains_nan n' x'
            end
  end.

(** src/coco_utilities.c:1046-1053 *)
Fixpoint coco_vector_isfinite (n : nat) (x : list double) : res bool :=
  match n with
  | O => Ok true
  | S n' => match x with
            | [] => UB
            | v :: x' => if coco_is_nan v || coco_is_inf v then Ok false else coco_vector_isfinite n' x'
            end
  end.

(** The loop of src/coco_utilities.c:1089-1094 *)
Fixpoint none_positive (n : nat) (values : list double) : res bool :=
  match n with
  | O => Ok true
  | S n' => match values with
            | [] => UB
            | v :: values' => if dlt dzero v then Ok false else none_positive n' values'
            end
  end.

(** src/coco_utilities.c:1071-1099.  The values of the constraints are not returned, no modelled
    caller uses them after the call. *)
Definition coco_is_feasible {C} (p : problem C) (x : list double) : res (bool * problem C) :=
  let h := head p in
  do n <- coco_problem_get_dimension h;
  do finite <- coco_vector_isfinite n x;
  if negb finite then Ok (false, p)
  else if (number_of_constraints h =? 0)%nat then Ok (true, p)
  else match evaluate_constraint C with
       | None => UB
       | Some g =>
         do (values, d) <- g h (body p) x false;
         do feasible <- none_positive (number_of_constraints h) values;
         Ok (feasible, set_body p d)
       end.

(** Lines 29-70 *)
Definition coco_evaluate_function {C} (p : problem C) (x : list double) : res (list double * problem C) :=
  let h := head p in
  do n <- coco_problem_get_dimension h;
  do infinite <- first_inf n x;
  match infinite with
  | Some v => Ok (repeat (dabs v) (number_of_objectives h), p)
  | None =>
    do nan <- coco_vector_contains_nan n x;
    if nan : bool then Ok (repeat dnan (number_of_objectives h), p) else
    do (y, d) <- evaluate_function C h (body p) x;
    let h1 := with_counters h (evaluations h + 1) (evaluations_constraints h)
                (best_observed_fvalue h) (best_observed_evaluation h) in
    let p1 := {| head := h1; body := d |} in
    do y0 <- mget y 0;
    if dlt y0 (best_observed_fvalue h1) then
      do (feasible, p2) <- if (0 <? number_of_constraints h1)%nat then coco_is_feasible p1 x else Ok (true, p1);
      if feasible : bool
      then Ok (y, set_head p2 (with_counters (head p2) (evaluations (head p2))
                   (evaluations_constraints (head p2)) y0 (evaluations (head p2))))
      else Ok (y, p2)
    else Ok (y, p1)
  end.

(** Lines 81-113 *)
Definition coco_evaluate_constraint_optional_update {C} (p : problem C) (x : list double)
    (update_counter : bool) : res (list double * problem C) :=
  let h := head p in
  match evaluate_constraint C with
  | None => Err
  | Some g =>
    do n <- coco_problem_get_dimension h;
    do infinite <- first_inf n x;
    match infinite with
    | Some v => Ok (repeat (dabs v) (number_of_constraints h), p)
    | None =>
      do nan <- coco_vector_contains_nan n x;
      if nan : bool then Ok (repeat dnan (number_of_constraints h), p) else
      do (y, d) <- g h (body p) x update_counter;
      Ok (y, {| head := if update_counter
                        then with_counters h (evaluations h) (evaluations_constraints h + 1)
                               (best_observed_fvalue h) (best_observed_evaluation h)
                        else h;
                body := d |})
    end
  end.

(** Lines 115-117 *)
Definition coco_evaluate_constraint {C} (p : problem C) (x : list double) : res (list double * problem C) :=
  coco_evaluate_constraint_optional_update p x true.

(** Lines 140-148; without a function only a warning is printed. *)
Definition coco_recommend_solution {C} (p : problem C) (x : list double) : res (problem C) :=
  match recommend_solution C with
  | None => Ok p
  | Some f => do d <- f (head p) (body p) x; Ok (set_body p d)
  end.

(** Lines 457-464 *)
Definition coco_problem_final_target_hit (h : header) : res bool :=
  if negb (number_of_objectives h =? 1)%nat || (evaluations h <? 1)%N then Ok false
  else match best_value h with
       | None => Ok false
       | Some v => do v0 <- mget v 0; Ok (dle (best_observed_fvalue h) (dadd v0 (final_target_delta h)))
       end.

(** Lines 155-206.  The vectors allocated for the best value and the best parameter are not yet
    written, the constructors of the problems do so: here they are arguments. *)
Definition coco_problem_allocate (nv no nc ni : nat) (value parameter : option (list double)) : header :=
  {| number_of_variables := nv; number_of_objectives := no; number_of_constraints := nc;
     number_of_integer_variables := ni; is_opt_known := negb (1 <? no)%nat;
     best_value := value; best_parameter := parameter; is_tainted := false;
     evaluations := 0; evaluations_constraints := 0; final_target_delta := ddec 1 8;
     best_observed_fvalue := DBL_MAX; best_observed_evaluation := 0 |}.

(** Lines 634-650 *)
Definition coco_problem_get_best_parameter (h : header) : option (list double) * header :=
  match best_parameter h with
  | Some v =>
    if (number_of_objectives h =? 1)%nat
    then (Some (firstn (number_of_variables h) v),
          {| number_of_variables := number_of_variables h; number_of_objectives := number_of_objectives h;
             number_of_constraints := number_of_constraints h;
             number_of_integer_variables := number_of_integer_variables h;
             is_opt_known := is_opt_known h; best_value := best_value h; best_parameter := best_parameter h;
             is_tainted := true; evaluations := evaluations h;
             evaluations_constraints := evaluations_constraints h;
             final_target_delta := final_target_delta h; best_observed_fvalue := best_observed_fvalue h;
             best_observed_evaluation := best_observed_evaluation h |})
    else (None, h)
  | None => (None, h)
  end.

(** Lines 751-786: a transformed problem that passes everything to its inner problem.  The copy made
    by coco_problem_duplicate (lines 211-275) has is_noisy 0. *)
Definition transformed (C : class) : class :=
  {| data := problem C;
     evaluate_function := fun _ inner x => coco_evaluate_function inner x;
     evaluate_constraint := Some (fun _ inner x u => coco_evaluate_constraint_optional_update inner x u);
     recommend_solution := Some (fun _ inner x => coco_recommend_solution inner x);
     last_noise_free := fun _ => None |}.

(** Lines 846-874; the header is the copy of the header of the inner problem. *)
Definition coco_problem_transformed_allocate {C} (inner : problem C) : problem (transformed C) :=
  Build_problem (transformed C) (head inner) inner.

(** Lines 887-936.  The values of a problem go to its part of the vector of the caller: the first
    number_of_objectives (number_of_constraints) ones of the first problem, then those of the second;
    a problem writes exactly its own number of values.  The assertion of line 913 compares with the
    best value of the stacked problem. *)
Definition tolerance : double := ddec 1 13.
Definition stacked_function (C1 C2 : class) (h : header) (d : problem C1 * problem C2) (x : list double)
    : res (list double * (problem C1 * problem C2)) :=
  let (p1, p2) := d in
  if negb (number_of_objectives h =? number_of_objectives (head p1) + number_of_objectives (head p2))%nat then UB else
  do (y1, p1a) <- if (0 <? number_of_objectives (head p1))%nat then coco_evaluate_function p1 x else Ok ([], p1);
  do (y2, p2a) <- if (0 <? number_of_objectives (head p2))%nat then coco_evaluate_function p2 x else Ok ([], p2);
  Ok (y1 ++ y2, (p1a, p2a)).
Definition stacked_constraint (C1 C2 : class) (h : header) (d : problem C1 * problem C2) (x : list double)
    (update_counter : bool) : res (list double * (problem C1 * problem C2)) :=
  let (p1, p2) := d in
  if negb (number_of_constraints h =? number_of_constraints (head p1) + number_of_constraints (head p2))%nat then UB else
  do (y1, p1a) <- if (0 <? number_of_constraints (head p1))%nat
                  then coco_evaluate_constraint_optional_update p1 x update_counter else Ok ([], p1);
  do (y2, p2a) <- if (0 <? number_of_constraints (head p2))%nat
                  then coco_evaluate_constraint_optional_update p2 x update_counter else Ok ([], p2);
  Ok (y1 ++ y2, (p1a, p2a)).
(** The check of lines 906-915, with the problem's own feasibility test *)
Definition stacked_check (C1 C2 : class) (h : header) (d : problem C1 * problem C2) (x y : list double)
    : res (problem C1 * problem C2) :=
  if (0 <? number_of_constraints h)%nat then
    do n <- coco_problem_get_dimension h;
    do finite <- coco_vector_isfinite n x;
    if negb finite then Ok d else
    do (values, d1) <- stacked_constraint C1 C2 h d x false;
    do feasible <- none_positive (number_of_constraints h) values;
    if feasible : bool then
      do y0 <- mget y 0;
      match best_value h with
      | None => UB
      | Some v => do v0 <- mget v 0; if dle v0 (dadd y0 tolerance) then Ok d1 else UB
      end
    else Ok d1
  else Ok d.
Definition stacked (C1 C2 : class) : class :=
  {| data := (problem C1 * problem C2)%type;
     evaluate_function := fun h d x =>
       do (y, d1) <- stacked_function C1 C2 h d x;
       do d2 <- stacked_check C1 C2 h d1 x y;
       Ok (y, d2);
     evaluate_constraint := Some (stacked_constraint C1 C2);
     recommend_solution := None;
     last_noise_free := fun _ => None |}.

(** The calls a user makes on one problem. *)
Inductive call := Evaluate (x : list double) | Constrain (x : list double) | Recommend (x : list double).

Definition perform {C} (p : problem C) (c : call) : res (list double * problem C) :=
  match c with
  | Evaluate x => coco_evaluate_function p x
  | Constrain x => coco_evaluate_constraint p x
  | Recommend x => do q <- coco_recommend_solution p x; Ok ([], q)
  end.

Fixpoint session {C} (p : problem C) (cs : list call) : res (list (list double) * problem C) :=
  match cs with
  | [] => Ok ([], p)
  | c :: cs' =>
    do (y, p1) <- perform p c;
    do (ys, p2) <- session p1 cs';
    Ok (y :: ys, p2)
  end.
