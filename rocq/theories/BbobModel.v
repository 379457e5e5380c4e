(** Model of the bbob logger, src/logger_bbob.c. *)
From Coq Require Import List Arith NArith ZArith Bool.
From Flocq Require Import BinarySingleNaN.
Import ListNotations.
From Verif Require Import CBase DblModel TrigModel ProbModel.

(** src/coco.h:87-89; src/logger_bbob.c:43,48 *)
Definition NAN_FOR_LOGGING : double := dint (2 * 10 ^ 21).
Definition INFINITY_FOR_LOGGING : double := dint (3 * 10 ^ 21).
Definition LOGGER_BBOB_WEIGHT_CONSTRAINTS : double := dint 1.
Definition LOGGER_BBOB_INFEASIBLE_PENALTY : double := dint (10 ^ 10).
(** The literal of the sanity check, lines 406 and 507 *)
Definition SANITY : double := ddec 1 13.

(** Lines 53-90, the fields that do not change after the construction *)
Record settings := {
  optimal_value : double;
  variables : nat;                (* number_of_variables *)
  integers : nat;                 (* number_of_integer_variables *)
  constraints : nat;              (* number_of_constraints *)
  log_discrete_as_int : bool }.

(** A line of a data file, the numbers before they are formatted. *)
Record line := {
  f_evaluations : N;
  g_evaluations : N;
  gap : double;
  measured : double;
  fifth : list Z + double;        (* digits or best value *)
  coordinates : list (Z + double) }.

(** Lines 179-184 *)
Fixpoint print_digits (n : nat) (values : list double) : res (list Z) :=
  match n with
  | O => Ok []
  | S n' => match values with
            | [] => UB
            | v :: values' => do ds <- print_digits n' values';
                              Ok (logger_bbob_single_digit_constraint v :: ds)
            end
  end.

(** Lines 190-195, from coordinate i on *)
Fixpoint print_coordinates (n i : nat) (k : settings) (x : list double) : res (list (Z + double)) :=
  match n with
  | O => Ok []
  | S n' => match x with
            | [] => UB
            | v :: x' =>
              do c <- if (i <? integers k)%nat && log_discrete_as_int k
                      then do z <- coco_double_to_int v; Ok (inl z) else Ok (inr v);
              do cs <- print_coordinates n' (S i) k x';
              Ok (c :: cs)
            end
  end.

(** Lines 171-203.  [x] is None if the vector has not been written yet; [values] is None for a NULL
    pointer. *)
Definition logger_bbob_output (k : settings) (func cons : N) (x : option (list double)) (current best : double)
    (values : option (list double)) : res line :=
  do fifth <- match values with
              | Some vs => if (0 <? constraints k)%nat then do ds <- print_digits (constraints k) vs; Ok (inl ds)
                           else Ok (inr best)
              | None => Ok (inr best)
              end;
  do cs <- if (variables k <? 22)%nat
           then match x with
                | Some v => print_coordinates (variables k) 0 k v
                | None => if (variables k =? 0)%nat then Ok [] else UB
                end
           else Ok [];
  Ok {| f_evaluations := func; g_evaluations := cons; gap := dsub best (optimal_value k); measured := current;
        fifth := fifth; coordinates := cs |}.

(** Lines 397-400 and 497-500, and 428-431, 522-525 *)
Definition for_logging (v : double) : double :=
  if coco_is_nan v then NAN_FOR_LOGGING
  else if coco_is_inf v then INFINITY_FOR_LOGGING
  else v.

(** The loops of lines 422-426 and 515-519 *)
Fixpoint positive_sum (n : nat) (values : list double) (sum : double) : res double :=
  match n with
  | O => Ok sum
  | S n' => match values with
            | [] => UB
            | v :: values' => positive_sum n' values' (if dlt dzero v then dadd sum v else sum)
            end
  end.

(** Lines 427-443 and 521-536: max_value + sum_constraints, given the loop's sum *)
Definition logged_merit (known : bool) (optimum y_logged sum : double) : double :=
  let sum_constraints := for_logging (dmul sum LOGGER_BBOB_WEIGHT_CONSTRAINTS) in
  let max_value :=
    if known then coco_double_max y_logged optimum
    else if dlt dzero sum_constraints then LOGGER_BBOB_INFEASIBLE_PENALTY else y_logged in
  dadd max_value sum_constraints.

(** The data files (they exist after logger_bbob_initialize).  The headers of the files, their names and the
    errors of opening them are not part of the model; nor is the info file except for the text
    added by logger_bbob_free. *)
Record files := { dat : list line; tdat : list line; rdat : list line; mdat : list line }.

(** Lines 53-90, the other fields.  A size_t that has not been written yet is None, as is a vector;
    current_value is never read; is_initialized is [output <> None].  The observer is assumed to live
    until the first evaluation or recommendation. *)
Record logger (C : class) := {
  inner : problem C;
  setting : settings;
  output : option files;
  algorithm_restarted : bool;
  num_func_evaluations : N;
  num_cons_evaluations : N;
  last_logged_eval_dat : option N;
  last_logged_eval_tdat : option N;
  last_logged_eval_mdat : N;
  best_found_solution : option (list double);
  best_found_value : double;
  best_recommended_solution : option (list double);
  best_recommended_value : double;
  target_triggers : targets;
  evaluation_triggers : TrigModel.evaluations;
  mdat_triggers : targets }.
Arguments inner {C}. Arguments setting {C}. Arguments output {C}. Arguments algorithm_restarted {C}.
Arguments num_func_evaluations {C}. Arguments num_cons_evaluations {C}. Arguments last_logged_eval_dat {C}.
Arguments last_logged_eval_tdat {C}. Arguments last_logged_eval_mdat {C}. Arguments best_found_solution {C}.
Arguments best_found_value {C}. Arguments best_recommended_solution {C}. Arguments best_recommended_value {C}.
Arguments target_triggers {C}. Arguments evaluation_triggers {C}. Arguments mdat_triggers {C}.
Arguments Build_logger {C}.

(** Lines 289-357, as far as modelled *)
Definition logger_bbob_initialize (o : option files) : files :=
  match o with
  | Some f => f
  | None => {| dat := []; tdat := []; rdat := []; mdat := [] |}
  end.

(** Lines 410-414 and 509-513: the constraints, evaluated by the function of the inner problem without
    the tests of coco_evaluate_constraint *)
Definition inner_constraints {C} (nc : nat) (p : problem C) (x : list double)
    : res (option (list double) * problem C) :=
  if (0 <? nc)%nat then
    match evaluate_constraint C with
    | None => UB
    | Some g => do (vs, d) <- g (head p) (body p) x false; Ok (Some vs, set_body p d)
    end
  else Ok (None, p).

Definition sum_of (nc : nat) (values : option (list double)) : res double :=
  positive_sum nc (match values with Some vs => vs | None => [] end) dzero.

(** Lines 365-369, 479-482 *)
Definition feasibility {C} (nc : nat) (p : problem C) (x : list double) : res (bool * problem C) :=
  if (nc =? 0)%nat then Ok (true, p) else coco_is_feasible p x.

Section Libm.
Variables log10 pow10 : double -> double.

(** Lines 363-471; h is the header of the observing problem. *)
Definition logger_bbob_evaluate {C} (h : header) (l : logger C) (x : list double)
    : res (list double * logger C) :=
  let k := setting l in
  let nc := number_of_constraints h in
  do (is_feasible, p0) <- feasibility nc (inner l) x;
  if is_tainted h || is_tainted (head p0) then Err else
  let f := logger_bbob_initialize (output l) in
  do (y, p1) <- coco_evaluate_function p0 x;
  let num := (num_func_evaluations l + 1)%N in
  do y0 <- mget y 0;
  do current_value <- match last_noise_free C (body p1) with None => Ok y0 | Some vs => mget vs 0 end;
  let y_logged := for_logging current_value in
  if is_opt_known h && is_feasible && negb (dle (optimal_value k) (dadd y_logged SANITY)) then UB else
  do (values, p2) <- inner_constraints nc p1 x;
  let num_cons := evaluations_constraints h in
  do sum <- sum_of nc values;
  let merit := logged_merit (is_opt_known h) (optimal_value k) y_logged sum in
  let better := (num =? 1)%N || dlt merit (best_found_value l) in
  let best := if better then merit else best_found_value l in
  let solution := if better then Some (firstn (number_of_variables h) x) else best_found_solution l in
  do (dat_line, targets) <-
    (if better then
       if (num =? 1)%N then Ok (true, target_triggers l)
       else targets_trigger log10 pow10 (target_triggers l) (dsub best (optimal_value k))
     else Ok (false, target_triggers l));
  do dat_file <- if dat_line then do o <- logger_bbob_output k num num_cons (Some x) y_logged best values;
                                  Ok (dat f ++ [o])
                 else Ok (dat f);
  do (tdat_line, evals) <- evaluations_trigger pow10 (evaluation_triggers l) (num + num_cons);
  do tdat_file <- if tdat_line : bool
                  then do o <- logger_bbob_output k num num_cons (Some x) y_logged best values; Ok (tdat f ++ [o])
                  else Ok (tdat f);
  do rdat_file <- if algorithm_restarted l
                  then do o <- logger_bbob_output k num num_cons (Some x) y_logged best values; Ok (rdat f ++ [o])
                  else Ok (rdat f);
  Ok (y,
      {| inner := p2; setting := k;
         output := Some {| dat := dat_file; tdat := tdat_file; rdat := rdat_file; mdat := mdat f |};
         algorithm_restarted := false;
         num_func_evaluations := num; num_cons_evaluations := num_cons;
         last_logged_eval_dat := if dat_line then Some num else last_logged_eval_dat l;
         last_logged_eval_tdat := if tdat_line then Some num else last_logged_eval_tdat l;
         last_logged_eval_mdat := last_logged_eval_mdat l;
         best_found_solution := solution; best_found_value := best;
         best_recommended_solution := best_recommended_solution l;
         best_recommended_value := best_recommended_value l;
         target_triggers := targets; evaluation_triggers := evals; mdat_triggers := mdat_triggers l |}).

(** Lines 477-553 *)
Definition logger_bbob_recommend {C} (h : header) (l : logger C) (x : list double) : res (logger C) :=
  let k := setting l in
  let nc := number_of_constraints h in
  do (is_feasible, p0) <- feasibility nc (inner l) x;
  let f := logger_bbob_initialize (output l) in
  do (y, p1) <- coco_evaluate_function p0 x;
  do y0 <- mget y 0;
  let y_logged := for_logging y0 in
  if is_opt_known h && is_feasible && negb (dle (optimal_value k) (dadd y_logged SANITY)) then UB else
  do (values, p2) <- inner_constraints nc p1 x;
  do sum <- sum_of nc values;
  let merit := logged_merit (is_opt_known h) (optimal_value k) y_logged sum in
  let better := dlt merit (best_recommended_value l) in
  let best := if better then merit else best_recommended_value l in
  let solution := if better then Some (firstn (number_of_variables h) x) else best_recommended_solution l in
  do (mdat_line, targets) <-
    (if better then targets_trigger log10 pow10 (mdat_triggers l) (dsub best (optimal_value k))
     else Ok (false, mdat_triggers l));
  do mdat_file <- if mdat_line : bool
                  then do o <- logger_bbob_output k (num_func_evaluations l) (num_cons_evaluations l) (Some x)
                                 y_logged best values;
                       Ok (mdat f ++ [o])
                  else Ok (mdat f);
  Ok {| inner := p2; setting := k;
        output := Some {| dat := dat f; tdat := tdat f; rdat := rdat f; mdat := mdat_file |};
        algorithm_restarted := algorithm_restarted l;
        num_func_evaluations := num_func_evaluations l; num_cons_evaluations := num_cons_evaluations l;
        last_logged_eval_dat := last_logged_eval_dat l; last_logged_eval_tdat := last_logged_eval_tdat l;
        last_logged_eval_mdat := if mdat_line then num_func_evaluations l else last_logged_eval_mdat l;
        best_found_solution := best_found_solution l; best_found_value := best_found_value l;
        best_recommended_solution := solution; best_recommended_value := best;
        target_triggers := target_triggers l; evaluation_triggers := evaluation_triggers l;
        mdat_triggers := targets |}.

Definition set_inner {C} (l : logger C) (p : problem C) : logger C :=
  {| inner := p; setting := setting l; output := output l; algorithm_restarted := algorithm_restarted l;
     num_func_evaluations := num_func_evaluations l; num_cons_evaluations := num_cons_evaluations l;
     last_logged_eval_dat := last_logged_eval_dat l; last_logged_eval_tdat := last_logged_eval_tdat l;
     last_logged_eval_mdat := last_logged_eval_mdat l;
     best_found_solution := best_found_solution l; best_found_value := best_found_value l;
     best_recommended_solution := best_recommended_solution l; best_recommended_value := best_recommended_value l;
     target_triggers := target_triggers l; evaluation_triggers := evaluation_triggers l;
     mdat_triggers := mdat_triggers l |}.

(** Lines 729-732 and src/coco_problem.c:766-772: the function for the constraints stays that of a
    transformed problem. *)
Definition logger_bbob_class (C : class) : class :=
  {| data := logger C;
     evaluate_function := fun h l x => logger_bbob_evaluate h l x;
     evaluate_constraint := Some (fun _ l x u =>
       do (vs, p) <- coco_evaluate_constraint_optional_update (inner l) x u; Ok (vs, set_inner l p));
     recommend_solution := Some (fun h l x => logger_bbob_recommend h l x);
     last_noise_free := fun _ => None |}.

(** Lines 655-662 *)
Definition logger_bbob_signal_restart {C} (l : logger C) : logger C :=
  if (0 <? num_func_evaluations l)%N then
    {| inner := inner l; setting := setting l; output := output l; algorithm_restarted := true;
       num_func_evaluations := num_func_evaluations l; num_cons_evaluations := num_cons_evaluations l;
       last_logged_eval_dat := last_logged_eval_dat l; last_logged_eval_tdat := last_logged_eval_tdat l;
       last_logged_eval_mdat := last_logged_eval_mdat l;
       best_found_solution := best_found_solution l; best_found_value := best_found_value l;
       best_recommended_solution := best_recommended_solution l; best_recommended_value := best_recommended_value l;
       target_triggers := target_triggers l; evaluation_triggers := evaluation_triggers l;
       mdat_triggers := mdat_triggers l |}
  else l.

(** The fields of the observer (src/coco_internal.h:227-255) that the logger uses, and known_optima of
    the suite. *)
Record observer_options := {
  known_optima : bool;
  lin_target_precision : double;
  number_target_triggers : N;
  log_target_precision : double;
  base_evaluation_triggers : cstr;
  discrete_as_int : bool }.

(** Lines 664-737, for an observer without an observed problem *)
Definition logger_bbob {C} (o : observer_options) (p : problem C) : res (problem (logger_bbob_class C)) :=
  do optimum <- match best_value (head p) with None => UB | Some v => mget v 0 end;
  let targets := new_targets (known_optima o) (lin_target_precision o) (number_target_triggers o)
                   (log_target_precision o) in
  do evals <- coco_observer_evaluations (base_evaluation_triggers o) (N.of_nat (number_of_variables (head p)));
  Ok (Build_problem (logger_bbob_class C) (head p)
        {| inner := p;
           setting := {| optimal_value := optimum; variables := number_of_variables (head p);
                         integers := number_of_integer_variables (head p);
                         constraints := number_of_constraints (head p);
                         log_discrete_as_int := discrete_as_int o |};
           output := None; algorithm_restarted := false;
           num_func_evaluations := 0; num_cons_evaluations := 0;
           last_logged_eval_dat := None; last_logged_eval_tdat := None; last_logged_eval_mdat := 0;
           best_found_solution := None; best_found_value := DBL_MAX;
           best_recommended_solution := None; best_recommended_value := INFINITY_FOR_LOGGING;
           target_triggers := targets; evaluation_triggers := evals; mdat_triggers := targets |}).

(** Lines 578-609: the last line of a data file *)
Definition final_line {C} (l : logger C) (last : option N) (file : list line) : res (list line) :=
  match last with
  | None => UB
  | Some n =>
    if (num_func_evaluations l =? n)%N then Ok file
    else do o <- logger_bbob_output (setting l) (num_func_evaluations l) (num_cons_evaluations l)
                   (best_found_solution l) (best_found_value l) (best_found_value l) None;
         Ok (file ++ [o])
  end.

(** Lines 558-640: what is written at the end; the number of evaluations and the difference for the info
    file, and the data files *)
Definition logger_bbob_free {C} (l : logger C) : res (option (N * double * files)) :=
  match output l with
  | None => Ok None
  | Some f =>
    do dat_file <- final_line l (last_logged_eval_dat l) (dat f);
    do tdat_file <- final_line l (last_logged_eval_tdat l) (tdat f);
    do mdat_file <-
      (if negb (num_func_evaluations l =? last_logged_eval_mdat l)%N && negb (last_logged_eval_mdat l =? 0)%N
       then do o <- logger_bbob_output (setting l) (num_func_evaluations l) (num_cons_evaluations l)
                      (best_recommended_solution l) (best_recommended_value l) (best_recommended_value l) None;
            Ok (mdat f ++ [o])
       else Ok (mdat f));
    Ok (Some (num_func_evaluations l, dsub (best_found_value l) (optimal_value (setting l)),
              {| dat := dat_file; tdat := tdat_file; rdat := rdat f; mdat := mdat_file |}))
  end.

(** What a user does with an observed problem: calls, and coco_observer_signal_restart. *)
Inductive action := Call (c : call) | Restart.

Definition act {C} (p : problem (logger_bbob_class C)) (a : action)
    : res (list double * problem (logger_bbob_class C)) :=
  match a with
  | Call c => perform p c
  | Restart => Ok ([], Build_problem (logger_bbob_class C) (head p) (logger_bbob_signal_restart (body p)))
  end.

Fixpoint observe {C} (p : problem (logger_bbob_class C)) (acts : list action)
    : res (list (list double) * problem (logger_bbob_class C)) :=
  match acts with
  | [] => Ok ([], p)
  | a :: acts' =>
    do (y, p1) <- act p a;
    do (ys, p2) <- observe p1 acts';
    Ok (y :: ys, p2)
  end.

(** A problem observed from its construction to its end. *)
Definition experiment {C} (o : observer_options) (p : problem C) (acts : list action)
    : res (list (list double) * option (N * double * files)) :=
  do q <- logger_bbob o p;
  do (ys, q1) <- observe q acts;
  do r <- logger_bbob_free (body q1);
  Ok (ys, r).
End Libm.
