(** Model of the old bbob logger, src/logger_bbob_old.c (observer "bbob-old"): what it records about a problem. *)
From Coq Require Import List Arith NArith ZArith Bool.
From Flocq Require Import BinarySingleNaN.
Import ListNotations.
From Verif Require Import CBase DblModel TrigModel ProbModel BbobModel.
Local Open Scope nat_scope.

(** Lines 28-32 *)
Definition fvalue_logged_for_infinite : double := dint (3 * 10 ^ 21).
Definition fvalue_logged_for_nan : double := dint (2 * 10 ^ 21).
Definition weight_constraints : double := dint 1.

(** Lines 103-111, from limit i on *)
Definition limits : list double :=
  [dzero; ddec 1 7; ddec 1 6; ddec 1 5; ddec 1 4; ddec 1 3; ddec 1 2; ddec 1 1; dint 1].
Fixpoint first_limit (c : double) (i : Z) (ls : list double) : Z :=
  match ls with
  | [] => 9
  | l :: ls' => if dle c l then i else first_limit c (i + 1) ls'
  end.
Definition single_digit_constraint_value (c : double) : Z := first_limit c 0 limits.

(** Lines 158-162: [values] is None for a NULL pointer, then the digits are those of the positions. *)
Fixpoint old_digits (n i : nat) (values : option (list double)) : res (list Z) :=
  match n with
  | O => Ok []
  | S n' =>
    match values with
    | None => do ds <- old_digits n' (S i) None; Ok (Z.of_nat (i mod 10) :: ds)
    | Some [] => UB
    | Some (v :: vs) => do ds <- old_digits n' (S i) (Some vs); Ok (single_digit_constraint_value v :: ds)
    end
  end.

(** Lines 145-180; the settings and lines are those of the bbob logger.  The difference of the size_t in line 166 wraps around
    if there are more integer variables than variables. *)
Definition logger_bbob_old_write_data (k : settings) (func cons : N) (fvalue best : double) (x : option (list double))
    (values : option (list double)) (number_of_constraints : nat) : res line :=
  do fifth <- if (0 <? number_of_constraints)%nat then do ds <- old_digits number_of_constraints 0 values; Ok (inl ds)
              else Ok (inr best);
  do cs <- if (integers k <=? variables k)%nat && (variables k - integers k <? 22)%nat
           then match x with
                | Some v => print_coordinates (variables k) 0 k v
                | None => if (variables k =? 0)%nat then Ok [] else UB
                end
           else Ok [];
  Ok {| f_evaluations := func; g_evaluations := cons; gap := dsub best (optimal_value k); measured := fvalue;
        fifth := fifth; coordinates := cs |}.

(** Lines 63-92.  best_fvalue and best_solution are None as long as they have not been written; last_fvalue is never read;
    is_initialized is [old_output <> None].  The .rdat file gets no lines. *)
Record old_logger (C : class) := {
  old_inner : problem C;
  old_setting : settings;
  old_output : option (list line * list line);     (* .dat and .tdat *)
  old_evaluations : N;
  old_constraints : N;
  old_best : option double;
  old_written : bool;                              (* written_last_eval *)
  old_solution : option (list double);
  old_targets : log_targets;
  old_triggers : TrigModel.evaluations }.
Arguments old_inner {C}. Arguments old_setting {C}. Arguments old_output {C}. Arguments old_evaluations {C}.
Arguments old_constraints {C}. Arguments old_best {C}. Arguments old_written {C}. Arguments old_solution {C}.
Arguments old_targets {C}. Arguments old_triggers {C}. Arguments Build_old_logger {C}.

(** Lines 431-435 and 453-457 *)
Definition old_for_logging (v : double) : double :=
  if coco_is_nan v then fvalue_logged_for_nan
  else if coco_is_inf v then fvalue_logged_for_infinite
  else v.

Section Libm.
Variables log10 pow10 : double -> double.

(** Lines 408-502; h is the header of the observing problem. *)
Definition logger_bbob_old_evaluate {C} (h : header) (l : old_logger C) (x : list double)
    : res (list double * old_logger C) :=
  let k := old_setting l in
  let nc := number_of_constraints h in
  do (is_feasible, p0) <- feasibility nc (old_inner l) x;
  let f := match old_output l with Some f => f | None => ([], []) end in
  do (y, p1) <- coco_evaluate_function p0 x;
  let num_cons := evaluations_constraints h in
  let num := (old_evaluations l + 1)%N in
  do y0 <- mget y 0;
  let y_logged := old_for_logging y0 in
  if is_feasible && negb (dle (optimal_value k) (dadd y_logged SANITY)) then UB else
  do (values, p2) <- inner_constraints nc p1 x;
  do sum <- sum_of nc values;
  let sum_cons := old_for_logging (dmul sum weight_constraints) in
  let max_fvalue := if dlt (optimal_value k) y_logged then y_logged else optimal_value k in
  let merit := dadd max_fvalue sum_cons in
  do better <- if (num =? 1)%N then Ok true
               else match old_best l with Some b => Ok (dlt merit b) | None => UB end;
  let best := if better : bool then Some merit else old_best l in
  let solution := if better then Some (firstn (number_of_variables h) x) else old_solution l in
  do (dat_line, targets) <-
    (if better then
       if (num =? 1)%N then Ok (true, old_targets l)
       else log_targets_trigger log10 pow10 (old_targets l) (dsub merit (optimal_value k))
     else Ok (false, old_targets l));
  let written b := logger_bbob_old_write_data k num num_cons y_logged b (Some x) values nc in
  do dat_file <- if dat_line then do o <- written merit; Ok (fst f ++ [o]) else Ok (fst f);
  do (tdat_line, evals) <- evaluations_trigger pow10 (old_triggers l) (num + num_cons);
  do tdat_file <- if tdat_line : bool
                  then match best with Some b => do o <- written b; Ok (snd f ++ [o]) | None => UB end
                  else Ok (snd f);
  Ok (y, {| old_inner := p2; old_setting := k; old_output := Some (dat_file, tdat_file);
            old_evaluations := num; old_constraints := num_cons; old_best := best; old_written := tdat_line;
            old_solution := solution; old_targets := targets; old_triggers := evals |}).

Definition old_set_inner {C} (l : old_logger C) (p : problem C) : old_logger C :=
  {| old_inner := p; old_setting := old_setting l; old_output := old_output l; old_evaluations := old_evaluations l;
     old_constraints := old_constraints l; old_best := old_best l; old_written := old_written l;
     old_solution := old_solution l; old_targets := old_targets l; old_triggers := old_triggers l |}.

(** Lines 617-620 and src/coco_problem.c:751-786: only the evaluation differs from a transformed problem. *)
Definition logger_bbob_old_class (C : class) : class :=
  {| data := old_logger C;
     evaluate_function := fun h l x => logger_bbob_old_evaluate h l x;
     evaluate_constraint := Some (fun _ l x u =>
       do (vs, p) <- coco_evaluate_constraint_optional_update (old_inner l) x u; Ok (vs, old_set_inner l p));
     recommend_solution := Some (fun _ l x => do p <- coco_recommend_solution (old_inner l) x; Ok (old_set_inner l p));
     last_noise_free := fun _ => None |}.

(** Lines 563-623.  A missing best value counts as 0. *)
Definition logger_bbob_old {C} (o : observer_options) (p : problem C) : res (problem (logger_bbob_old_class C)) :=
  do optimum <- match best_value (head p) with None => Ok dzero | Some v => mget v 0 end;
  do evals <- coco_observer_evaluations (base_evaluation_triggers o) (N.of_nat (number_of_variables (head p)));
  Ok (Build_problem (logger_bbob_old_class C) (head p)
        {| old_inner := p;
           old_setting := {| optimal_value := optimum; variables := number_of_variables (head p);
                             integers := number_of_integer_variables (head p);
                             constraints := number_of_constraints (head p);
                             log_discrete_as_int := discrete_as_int o |};
           old_output := None; old_evaluations := 0; old_constraints := 0; old_best := None; old_written := false;
           old_solution := None;
           old_targets := new_log_targets (number_target_triggers o) (log_target_precision o);
           old_triggers := evals |}).

(** Lines 511-561: the number of evaluations and the difference for the info file, the .dat and the .tdat file *)
Definition logger_bbob_old_free {C} (l : old_logger C) : res (option (N * double * list line * list line)) :=
  match old_output l with
  | None => Ok None
  | Some (d, t) =>
    match old_best l with
    | None => UB
    | Some b =>
      do t1 <- if negb (old_written l)
               then do o <- logger_bbob_old_write_data (old_setting l) (old_evaluations l) (old_constraints l) b b
                              (old_solution l) None 0;
                    Ok (t ++ [o])
               else Ok t;
      Ok (Some (old_evaluations l, dsub b (optimal_value (old_setting l)), d, t1))
    end
  end.

(** src/observer_bbob_old.c:26-30, src/coco_observer.c:889-903: signalling a restart has no effect. *)
Definition old_act {C} (p : problem (logger_bbob_old_class C)) (a : action)
    : res (list double * problem (logger_bbob_old_class C)) :=
  match a with
  | Call c => perform p c
  | Restart => Ok ([], p)
  end.

Fixpoint old_observe {C} (p : problem (logger_bbob_old_class C)) (acts : list action)
    : res (list (list double) * problem (logger_bbob_old_class C)) :=
  match acts with
  | [] => Ok ([], p)
  | a :: acts' =>
    do (y, p1) <- old_act p a;
    do (ys, p2) <- old_observe p1 acts';
    Ok (y :: ys, p2)
  end.

(** A problem observed from its construction to its end. *)
Definition old_experiment {C} (o : observer_options) (p : problem C) (acts : list action)
    : res (list (list double) * option (N * double * list line * list line)) :=
  do q <- logger_bbob_old o p;
  do (ys, q1) <- old_observe q acts;
  do r <- logger_bbob_old_free (body q1);
  Ok (ys, r).
End Libm.
