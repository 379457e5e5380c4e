(** Model of the triggers of src/coco_observer.c and of coco_double_round_up_with_precision. *)
From Coq Require Import List Arith NArith ZArith Bool Lia.
From Flocq Require Import BinarySingleNaN.
Import ListNotations.
From Verif Require Import CBase StrModel OptModel DblModel.
Open Scope Z_scope.

Section Libm.
(** log10 and pow(10, .) of the C library. *)
Variables log10 pow10 : double -> double.

(** src/coco_observer.c:21-30 *)
Record log_targets := {
  lt_exponent : Z; lt_value : double; lt_triggers : N; lt_precision : double }.

(** Lines 112-121 *)
Definition new_log_targets (number_of_targets : N) (precision : double) : log_targets :=
  {| lt_exponent := INT_MAX; lt_value := DBL_MAX; lt_triggers := number_of_targets; lt_precision := precision |}.

(** Overflow of int arithmetic is undefined. *)
Definition int_range (z : Z) : res Z := if (INT_MIN <=? z) && (z <=? INT_MAX) then Ok z else UB.

(** Lines 127-197 for log_targets != NULL; (long) of the number of triggers is exact below 2^63. *)
Definition log_targets_trigger (t : log_targets) (given_value : double) : res (bool * log_targets) :=
  let n := dint (Z.of_N (lt_triggers t)) in
  let p := lt_precision t in
  if dle dzero given_value then
    let verified_value :=
      if deq given_value dzero then ddiv p (dint 10)
      else if dlt given_value p then p
      else given_value in
    do current_exponent <- to_int (dceil (dmul (log10 verified_value) n));
    if current_exponent <? lt_exponent t then
      Ok (true, {| lt_exponent := current_exponent;
                   lt_value := if deq given_value dzero then dzero
                               else pow10 (ddiv (dint current_exponent) n);
                   lt_triggers := lt_triggers t; lt_precision := p |})
    else Ok (false, t)
  else
    let verified_value := if dlt (dopp p) given_value then p else dopp given_value in
    do current_exponent <- to_int (dfloor (dmul (log10 verified_value) n));
    do e0 <- to_int (dceil (dmul (log10 (ddiv p (dint 10))) n));
    do e1 <- int_range (2 * e0);
    do e2 <- int_range (e1 - current_exponent);
    do adjusted_exponent <- int_range (e2 - 1);
    if adjusted_exponent <? lt_exponent t then
      Ok (true, {| lt_exponent := adjusted_exponent;
                   lt_value := dopp (pow10 (ddiv (dint current_exponent) n));
                   lt_triggers := lt_triggers t; lt_precision := p |})
    else Ok (false, t).

(** src/coco_utilities.c:924-938; a failed assertion is UB. *)
Definition min_precision : double := ddec 1 12.
Definition coco_double_round_up_with_precision (number precision : double) : res double :=
  if negb (dlt min_precision precision) then UB else
  let rounded_up := dmul (dceil (ddiv number precision)) precision in
  let rounded := dmul (coco_double_round (ddiv number precision)) precision in
  Ok (if coco_double_almost_equal rounded rounded_up precision then rounded_up
      else if coco_double_almost_equal (dsub number rounded) dzero min_precision then rounded
      else rounded_up).

(** Lines 39-44 and 205-212 *)
Record lin_targets := { li_value : double; li_precision : double }.
Definition new_lin_targets (precision : double) : lin_targets := {| li_value := DBL_MAX; li_precision := precision |}.

(** Lines 218-232 *)
Definition lin_targets_trigger (t : lin_targets) (given_value : double) : res (bool * lin_targets) :=
  do target_reached <- coco_double_round_up_with_precision given_value (li_precision t);
  if dlt target_reached (li_value t)
  then Ok (true, {| li_value := target_reached; li_precision := li_precision t |})
  else Ok (false, t).

(** Lines 52-58; log_targets is NULL exactly when use_log_targets is 0. *)
Record targets := { linear : lin_targets; logarithmic : option log_targets }.

(** Lines 242-253 *)
Definition new_targets (optima_known : bool) (lin_precision : double) (number_of_targets : N)
    (log_precision : double) : targets :=
  {| linear := new_lin_targets lin_precision;
     logarithmic := if (0 <? number_of_targets)%N && optima_known
                    then Some (new_log_targets number_of_targets log_precision) else None |}.

(** Lines 258-263 *)
Definition targets_trigger (t : targets) (given_value : double) : res (bool * targets) :=
  do (log_trigger, lg) <-
    match logarithmic t with
    | None => Ok (false, None)
    | Some l => do (b, l') <- log_targets_trigger l given_value; Ok (b, Some l')
    end;
  do (lin_trigger, li) <- lin_targets_trigger (linear t) given_value;
  Ok (log_trigger || lin_trigger, {| linear := li; logarithmic := lg |}).

(** Lines 268-280 *)
Definition targets_get_last_target (t : targets) : double :=
  match logarithmic t with
  | Some l => if dlt (lt_value l) (li_value (linear t)) then lt_value l else li_value (linear t)
  | None => li_value (linear t)
  end.

(** Lines 67-87 *)
Record evaluations := {
  ev_value1 : N; ev_exponent1 : nat; ev_triggers : N;
  ev_value2 : N; ev_exponent2 : nat; ev_base : list N; ev_index : nat; ev_dimension : N }.

(** Line 95 *)
Definition COCO_MAX_EVALS_TO_LOG : nat := 1000.

(** Lines 319-339.  A string without numbers makes coco_string_parse_ranges return NULL, which
    coco_count_numbers dereferences.  [ev_base] are the base_count numbers before the first 0. *)
Definition coco_observer_evaluations (base_evaluations : cstr) (dimension : N) : res evaluations :=
  do r <- coco_string_parse_ranges base_evaluations 1 0 COCO_MAX_EVALS_TO_LOG;
  match r with
  | None => UB
  | Some numbers =>
    do count <- coco_count_numbers numbers COCO_MAX_EVALS_TO_LOG;
    do base <- read_numbers numbers count;
    do first <- mget base 0;
    Ok {| ev_value1 := 1; ev_exponent1 := 0; ev_triggers := 20;
          ev_value2 := ((dimension * first) mod 2 ^ 64)%N; ev_exponent2 := 0;
          ev_base := base; ev_index := 0; ev_dimension := dimension |}
  end.

(** floor(pow(10, exponent1 / number_of_triggers)) as a size_t, line 355-356 *)
Definition first_value (triggers : N) (exponent : nat) : res N :=
  coco_double_to_size_t (dfloor (pow10 (ddiv (dint (Z.of_nat exponent)) (dint (Z.of_N triggers))))).

(** The loop of lines 355-358, at most [fuel] rounds (more is UB). *)
Fixpoint first_loop (fuel : nat) (triggers : N) (value : N) (exponent : nat) : res nat :=
  match fuel with
  | O => UB
  | S fuel' =>
    do v <- first_value triggers exponent;
    if (v <=? value)%N then first_loop fuel' triggers value (S exponent) else Ok exponent
  end.

(** Lines 348-364 *)
Definition trigger_first (ev : evaluations) (evaluation_number : N) : res (bool * evaluations) :=
  if (ev_value1 ev <=? evaluation_number)%N then
    do e <- first_loop 1000 (ev_triggers ev) (ev_value1 ev) (ev_exponent1 ev);
    do v <- first_value (ev_triggers ev) e;
    Ok (true, {| ev_value1 := v; ev_exponent1 := e; ev_triggers := ev_triggers ev;
                 ev_value2 := ev_value2 ev; ev_exponent2 := ev_exponent2 ev; ev_base := ev_base ev;
                 ev_index := ev_index ev; ev_dimension := ev_dimension ev |})
  else Ok (false, ev).

(** Lines 374-393; base_count - 1 is a size_t. *)
Definition trigger_second (ev : evaluations) (evaluation_number : N) : res (bool * evaluations) :=
  if (ev_value2 ev <=? evaluation_number)%N then
    let (i, e) := if (ev_index ev <? List.length (ev_base ev) - 1)%nat
                  then (S (ev_index ev), ev_exponent2 ev) else (O, S (ev_exponent2 ev)) in
    do b <- mget (ev_base ev) i;
    do v <- coco_double_to_size_t (dmul (dmul (pow10 (dint (Z.of_nat e))) (dint (Z.of_N (ev_dimension ev))))
                                        (dint (Z.of_N b)));
    Ok (true, {| ev_value1 := ev_value1 ev; ev_exponent1 := ev_exponent1 ev; ev_triggers := ev_triggers ev;
                 ev_value2 := v; ev_exponent2 := e; ev_base := ev_base ev;
                 ev_index := i; ev_dimension := ev_dimension ev |})
  else Ok (false, ev).

(** Lines 403-411 *)
Definition evaluations_trigger (ev : evaluations) (evaluation_number : N) : res (bool * evaluations) :=
  do (first, ev1) <- trigger_first ev evaluation_number;
  do (second, ev2) <- trigger_second ev1 evaluation_number;
  Ok (first || second, ev2).

(** A trigger consulted with a sequence of values. *)
Fixpoint consult {S V : Type} (trigger : S -> V -> res (bool * S)) (s : S) (vs : list V) : res (list bool * S) :=
  match vs with
  | [] => Ok ([], s)
  | v :: vs' =>
    do (b, s1) <- trigger s v;
    do (bs, s2) <- consult trigger s1 vs';
    Ok (b :: bs, s2)
  end.
End Libm.

(** src/logger_bbob.c:142-150 *)
Definition digit_limits : list double :=
  [dzero; ddec 1 7; ddec 1 6; ddec 1 5; ddec 1 4; ddec 1 3; ddec 1 2; ddec 1 1; dint 1].
Fixpoint digit_loop (c : double) (i : Z) (limits : list double) : Z :=
  match limits with
  | [] => 9
  | l :: limits' => if dle c l then i else digit_loop c (i + 1) limits'
  end.
Definition logger_bbob_single_digit_constraint (c : double) : Z := digit_loop c 0 digit_limits.
