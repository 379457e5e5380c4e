(** Model of the toy and the real-world logger, src/logger_toy.c and src/logger_rw.c. *)
From Coq Require Import String Ascii List Arith NArith ZArith Bool.
From Flocq Require Import BinarySingleNaN.
Import ListNotations.
From Verif Require Import CBase OptModel IdModel DblModel TrigModel ProbModel BbobModel.

(** * The toy logger *)

(** src/logger_toy.c:58-66, the numbers of a line before they are formatted *)
Record toy_line := {
  t_evaluation : N;
  t_value : double;
  t_target : double;
  t_variables : list double }.

(** src/logger_toy.c:22-28.  All loggers of an observer write to the same file; [t_lines] are the lines this logger has
    written to it after its two header lines. *)
Record toy_data (C : class) := {
  t_inner : problem C;
  t_targets : log_targets;
  t_evaluations : N;
  t_lines : list toy_line }.
Arguments t_inner {C}. Arguments t_targets {C}. Arguments t_evaluations {C}. Arguments t_lines {C}.

(** The loops that print the first n elements of a vector *)
Fixpoint print_first (n : nat) (x : list double) : res (list double) :=
  match n with
  | O => Ok []
  | S n' => match x with
            | [] => UB
            | v :: x' => do vs <- print_first n' x'; Ok (v :: vs)
            end
  end.

Section Libm.
Variables log10 pow10 : double -> double.

(** src/logger_toy.c:50-70; h is the header of the observing problem.  The file of the observer is assumed to be open. *)
Definition logger_toy_evaluate {C} (h : header) (l : toy_data C) (x : list double) : res (list double * toy_data C) :=
  do (y, p) <- coco_evaluate_function (t_inner l) x;
  let count := (t_evaluations l + 1)%N in
  do y0 <- mget y 0;
  do (hit, targets) <- log_targets_trigger log10 pow10 (t_targets l) y0;
  do lines <- if hit : bool
              then do vs <- print_first (number_of_variables h) x;
                   Ok (t_lines l ++ [{| t_evaluation := count; t_value := y0; t_target := lt_value targets; t_variables := vs |}])
              else Ok (t_lines l);
  Ok (y, {| t_inner := p; t_targets := targets; t_evaluations := count; t_lines := lines |}).

Definition toy_set_inner {C} (l : toy_data C) (p : problem C) : toy_data C :=
  {| t_inner := p; t_targets := t_targets l; t_evaluations := t_evaluations l; t_lines := t_lines l |}.

(** src/logger_toy.c:93-94 and src/coco_problem.c:751-786: only the evaluation differs from a transformed problem. *)
Definition logger_toy_class (C : class) : class :=
  {| data := toy_data C;
     evaluate_function := fun h l x => logger_toy_evaluate h l x;
     evaluate_constraint := Some (fun _ l x u =>
       do (vs, p) <- coco_evaluate_constraint_optional_update (t_inner l) x u; Ok (vs, toy_set_inner l p));
     recommend_solution := Some (fun _ l x => do p <- coco_recommend_solution (t_inner l) x; Ok (toy_set_inner l p));
     last_noise_free := fun _ => None |}.

(** src/logger_toy.c:75-106 *)
Definition logger_toy {C} (number_target_triggers : N) (log_target_precision : double) (p : problem C)
    : problem (logger_toy_class C) :=
  Build_problem (logger_toy_class C) (head p)
    {| t_inner := p; t_targets := new_log_targets number_target_triggers log_target_precision;
       t_evaluations := 0; t_lines := [] |}.
End Libm.

(** * The real-world logger *)

(** src/observer_rw.c:12 and 17-25 *)
Inductive log_mode := LOG_NEVER | LOG_LOW_DIM | LOG_ALWAYS.
Record observer_rw_data := {
  log_vars_mode : log_mode;
  log_cons_mode : log_mode;
  low_dim_vars : N;
  low_dim_cons : N;
  observer_only_better : Z;         (* int, every value but 0 is true *)
  observer_log_time : Z }.

(** A line of the file before its numbers are formatted; the time is not modelled, only whether there is one. *)
Record rw_line := {
  r_function : N;
  r_constraint : N;
  r_objectives : list double;
  r_variables : list (Z + double);
  r_constraints : list double;
  r_timed : bool }.

(** src/logger_rw.c:33-50, without the precisions; num_cons_evaluations is only read where it is written. *)
Record rw_data (C : class) := {
  r_inner : problem C;
  r_evaluations : N;
  r_best : double;
  r_current : double;
  r_log_vars : bool;
  r_log_cons : bool;
  r_only_better : bool;
  r_log_time : bool;
  r_as_int : bool;
  r_header : cstr;
  r_lines : list rw_line }.
Arguments r_inner {C}. Arguments r_evaluations {C}. Arguments r_best {C}. Arguments r_current {C}.
Arguments r_log_vars {C}. Arguments r_log_cons {C}. Arguments r_only_better {C}. Arguments r_log_time {C}.
Arguments r_as_int {C}. Arguments r_header {C}. Arguments r_lines {C}.

(** src/logger_rw.c:101-106, from variable i on *)
Fixpoint rw_variables (n i : nat) (integers : nat) (as_int : bool) (x : list double) : res (list (Z + double)) :=
  match n with
  | O => Ok []
  | S n' => match x with
            | [] => UB
            | v :: x' =>
              do c <- if (i <? integers)%nat && as_int then do z <- coco_double_to_int v; Ok (inl z) else Ok (inr v);
              do cs <- rw_variables n' (S i) integers as_int x';
              Ok (c :: cs)
            end
  end.

(** src/logger_rw.c:56-121; the constraints are those of the function of the inner problem (as in the bbob logger). *)
Definition logger_rw_evaluate {C} (h : header) (l : rw_data C) (x : list double) : res (list double * rw_data C) :=
  do (y, p1) <- coco_evaluate_function (r_inner l) x;
  let count := (r_evaluations l + 1)%N in
  let single := (number_of_objectives h =? 1)%nat in
  do current <- if single then mget y 0 else Ok (r_current l);
  do (constraints, p2) <- inner_constraints (number_of_constraints h) p1 x;
  let num_cons := evaluations_constraints h in
  let better := single && dlt current (r_best l) in
  let best := if better then current else r_best l in
  let log_this_time := if better then true else if single then negb (r_only_better l) else true in
  do lines <-
    (if (count =? 1)%N || log_this_time then
       do objectives <- print_first (number_of_objectives h) y;
       do vs <- if r_log_vars l
                then rw_variables (number_of_variables h) 0 (number_of_integer_variables h) (r_as_int l) x else Ok [];
       do cs <- if r_log_cons l
                then match constraints with
                     | Some c => print_first (number_of_constraints h) c
                     | None => print_first (number_of_constraints h) []
                     end
                else Ok [];
       Ok (r_lines l ++ [{| r_function := count; r_constraint := num_cons; r_objectives := objectives;
                            r_variables := vs; r_constraints := cs; r_timed := r_log_time l |}])
     else Ok (r_lines l));
  Ok (y, {| r_inner := p2; r_evaluations := count; r_best := best; r_current := current;
            r_log_vars := r_log_vars l; r_log_cons := r_log_cons l; r_only_better := r_only_better l;
            r_log_time := r_log_time l; r_as_int := r_as_int l; r_header := r_header l; r_lines := lines |}).

Definition rw_set_inner {C} (l : rw_data C) (p : problem C) : rw_data C :=
  {| r_inner := p; r_evaluations := r_evaluations l; r_best := r_best l; r_current := r_current l;
     r_log_vars := r_log_vars l; r_log_cons := r_log_cons l; r_only_better := r_only_better l;
     r_log_time := r_log_time l; r_as_int := r_as_int l; r_header := r_header l; r_lines := r_lines l |}.

(** src/logger_rw.c:222-223 and src/coco_problem.c:751-786 *)
Definition logger_rw_class (C : class) : class :=
  {| data := rw_data C;
     evaluate_function := fun h l x => logger_rw_evaluate h l x;
     evaluate_constraint := Some (fun _ l x u =>
       do (vs, p) <- coco_evaluate_constraint_optional_update (r_inner l) x u; Ok (vs, rw_set_inner l p));
     recommend_solution := Some (fun _ l x => do p <- coco_recommend_solution (r_inner l) x; Ok (rw_set_inner l p));
     last_noise_free := fun _ => None |}.

(** src/logger_rw.c:166-179 *)
Definition rw_log_vars (o : observer_rw_data) (h : header) : bool :=
  negb (match log_vars_mode o with
        | LOG_LOW_DIM => (low_dim_vars o <? N.of_nat (number_of_variables h))%N
        | LOG_NEVER => true
        | LOG_ALWAYS => false
        end).
Definition rw_log_cons (o : observer_rw_data) (h : header) : bool :=
  negb (match log_cons_mode o with
        | LOG_LOW_DIM => (low_dim_cons o <? N.of_nat (number_of_constraints h))%N
        | LOG_NEVER => true
        | LOG_ALWAYS => false
        end || (number_of_constraints h =? 0)%nat).

(** src/logger_rw.c:206-220, the second header line *)
Definition rw_header (h : header) (log_vars log_cons log_time : bool) : cstr :=
  str "% f-evaluations | g-evaluations | " ++ print_lu 0 (N.of_nat (number_of_objectives h)) ++ str " objective" ++
  (if (1 <? number_of_objectives h)%nat then str "s" else []) ++
  (if log_vars then str " | " ++ print_lu 0 (N.of_nat (number_of_variables h)) ++ str " variable" else []) ++
  (if (1 <? number_of_variables h)%nat then str "s" else []) ++
  (if log_cons then str " | " ++ print_lu 0 (N.of_nat (number_of_constraints h)) ++ str " constraint" else []) ++
  (if (1 <? number_of_constraints h)%nat then str "s" else []) ++
  (if log_time then str " | evaluation time (s)" else []).

(** src/logger_rw.c:148-226.  The name of the file and the failure to open it are not modelled. *)
Definition logger_rw {C} (o : observer_rw_data) (as_int : bool) (p : problem C) : problem (logger_rw_class C) :=
  let h := head p in
  let log_vars := rw_log_vars o h in
  let log_cons := rw_log_cons o h in
  let log_time := negb (observer_log_time o =? 0)%Z in
  Build_problem (logger_rw_class C) h
    {| r_inner := p; r_evaluations := 0; r_best := DBL_MAX; r_current := DBL_MAX;
       r_log_vars := log_vars; r_log_cons := log_cons;
       r_only_better := negb (observer_only_better o =? 0)%Z && (number_of_objectives h =? 1)%nat;
       r_log_time := log_time; r_as_int := as_int;
       r_header := rw_header h log_vars log_cons log_time; r_lines := [] |}.
