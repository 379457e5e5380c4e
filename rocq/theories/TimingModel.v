(** Model of the loop over a suite in the C example experiment with its account of time per dimension (build/c/example_experiment.c 91-99,
    168-240 and 427-522). The runs of the algorithm on a problem are those of DemoModel.v; here a problem only has the number of function
    evaluations made on it. A line of output is its dimension and the number of evaluations that the time was divided by. *)
From Coq Require Import List NArith ZArith Bool.
From Verif Require Import CBase SuiteModel.
Import ListNotations.
Local Open Scope N_scope.

(** Lines 91-99; [output] are the entries written so far, current_idx is their number. *)
Record timing := mk_timing { number_of_dimensions : N; output : list (N * N); previous_dimension : N; cumulative_evaluations : N }.
(** Lines 427-450. The three outputs of coco_suite_decode_problem_index are not initialised; it always sets them. *)
Definition timing_data_initialize (s : suite) : res timing :=
  do (_, d, _) <- coco_suite_decode_problem_index s (wsub1 (coco_suite_get_number_of_problems s)) 0 0 0;
  Ok (mk_timing (wadd d 1) [] 0 0).
(** Lines 457-488 *)
Definition timing_data_time_problem (t : timing) (p : option (N * N)) : res timing :=
  if match p with None => true | Some (dim, _) => negb (previous_dimension t =? dim) end then
    do out <- (if 0 <? cumulative_evaluations t then
                 if N.of_nat (length (output t)) <? number_of_dimensions t
                 then Ok (output t ++ [(previous_dimension t, cumulative_evaluations t)]) else UB
               else Ok (output t));
    match p with
    | Some (dim, e) => Ok (mk_timing (number_of_dimensions t) out dim e)
    | None => Ok (mk_timing (number_of_dimensions t) out (previous_dimension t) (cumulative_evaluations t))
    end
  else match p with
       | Some (_, e) => Ok (mk_timing (number_of_dimensions t) (output t) (previous_dimension t) (wadd (cumulative_evaluations t) e))
       | None => Ok t
       end.
(** Lines 493-508: the lines printed; the unused entries of the array are NULL. *)
Definition timing_data_finalize (t : timing) : res (list (N * N)) := do t' <- timing_data_time_problem t None; Ok (output t').
(** Lines 183-233; [evaluations] is what coco_problem_get_evaluations gives after the runs; None if [fuel] problems have been done. *)
Fixpoint suite_loop (fuel : nat) (evaluations : problem -> N) (s : suite) (t : timing) : res (option timing) :=
  match fuel with
  | O => Ok None
  | S fuel' =>
    do (p, s') <- coco_suite_get_next_problem s;
    match p with
    | None => Ok (Some t)
    | Some p => do t' <- timing_data_time_problem t (Some (dep_dimension p, evaluations p)); suite_loop fuel' evaluations s' t'
    end
  end.
(** Lines 168-240 *)
Definition example_experiment (fuel : nat) (evaluations : problem -> N) (s : suite) : res (option (list (N * N))) :=
  do t <- timing_data_initialize s;
  do r <- suite_loop fuel evaluations s t;
  match r with None => Ok None | Some t' => do l <- timing_data_finalize t'; Ok (Some l) end.
