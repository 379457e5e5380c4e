(** Model of src/transform_vars_discretize.c and of the regions of interest of the mixed-integer suites
    (src/suite_bbob_mixint.c:61-116, src/suite_biobj_mixint.c:101-137). *)
From Coq Require Import List Arith NArith ZArith Bool.
From Flocq Require Import BinarySingleNaN.
Import ListNotations.
From Verif Require Import CBase OptModel DblModel ProbModel.

(** The bounds of one variable: region of interest of the inner and of the outer problem *)
Record bounds := { inner_low : double; inner_high : double; outer_low : double; outer_high : double }.

(** transform_vars_discretize.c:58-62 and 117-121: the first and the last of the n points of the inner interval.  The
    arithmetic of n is in int. *)
Definition inner_points (b : bounds) : res (double * double) :=
  do zu <- coco_double_to_int (outer_high b);
  do zl <- coco_double_to_int (outer_low b);
  let n := (zu - zl + 1)%Z in
  if negb ((INT_MIN <=? zu - zl)%Z && (zu - zl <=? INT_MAX)%Z && (n + 1 <=? INT_MAX)%Z) then UB
  else if negb (1 <? n)%Z then UB
  else
    let width := ddiv (dsub (inner_high b) (inner_low b)) (dint (n + 1)) in
    Ok (dadd (inner_low b) width, dsub (inner_high b) width).

(** Lines 64-68 and 127-130 *)
Definition respect (b : bounds) (v : double) : double :=
  let v1 := if dlt v (outer_low b) then outer_low b else v in
  if dlt (outer_high b) v1 then outer_high b else v1.

(** Lines 69-70 (without the offset) and 133 *)
Definition inner_value (b : bounds) (il iu v : double) : double :=
  dadd il (ddiv (dmul (dsub iu il) (dsub v (outer_low b))) (dsub (outer_high b) (outer_low b))).

(** Lines 54-70 for one variable *)
Definition discretize (b : bounds) (offset x : double) : res double :=
  do (il, iu) <- inner_points b;
  Ok (dsub (inner_value b il iu (respect b (coco_double_round x))) offset).

(** Lines 112-136 for one integer variable: the best parameter and the offset *)
Definition align (b : bounds) (xopt : double) : res (double * double) :=
  do (il, iu) <- inner_points b;
  let v := dadd (outer_low b) (ddiv (dmul (dsub (outer_high b) (outer_low b)) (dsub xopt il)) (dsub iu il)) in
  let best := respect b (coco_double_round (dadd v (ddec 1 7))) in
  Ok (best, dsub (inner_value b il iu best) xopt).

(** The data of the transformed problem; the regions of interest of the two problems are kept here. *)
Record discretized (C : class) := {
  d_inner : problem C;
  d_bounds : list bounds;
  d_offset : list double }.
Arguments d_inner {C}. Arguments d_bounds {C}. Arguments d_offset {C}.

(** Lines 51-71, from the variables given on; n of them are integer. *)
Fixpoint discretize_all (n : nat) (bs : list bounds) (offsets x : list double) : res (list double) :=
  match n with
  | O => Ok x
  | S n' =>
    match bs, offsets, x with
    | b :: bs', o :: offsets', v :: x' =>
      do v' <- discretize b o v;
      do r <- discretize_all n' bs' offsets' x';
      Ok (v' :: r)
    | _, _, _ => UB
    end
  end.

(** Lines 36-75 *)
Definition discretize_class (C : class) : class :=
  {| data := discretized C;
     evaluate_function := fun h d x =>
       do n <- coco_problem_get_dimension h;
       do nan <- coco_vector_contains_nan n x;
       if nan : bool then Ok (repeat dnan (number_of_objectives h), d) else
       do z <- discretize_all (number_of_integer_variables h) (d_bounds d) (d_offset d) (firstn (number_of_variables h) x);
       do (y, p) <- coco_evaluate_function (d_inner d) z;
       Ok (y, {| d_inner := p; d_bounds := d_bounds d; d_offset := d_offset d |});
     evaluate_constraint := None;
     recommend_solution := Some (fun _ d x =>
       do p <- coco_recommend_solution (d_inner d) x;
       Ok {| d_inner := p; d_bounds := d_bounds d; d_offset := d_offset d |});
     last_noise_free := fun _ => None |}.

(** Lines 106-138: best parameter and offset of every variable; n of them are integer. *)
Fixpoint align_all (n : nat) (bs : list bounds) (best : list double) : res (list double * list double) :=
  match bs, best with
  | [], [] => Ok ([], [])
  | b :: bs', v :: best' =>
    if negb (dlt (outer_low b) (outer_high b)) then UB else
    do (w, o) <- match n with O => Ok (v, dint 0) | S _ => align b v end;
    do (ws, os) <- align_all (Nat.pred n) bs' best';
    Ok (w :: ws, o :: os)
  | _, _ => UB
  end.

(** Lines 88-150.  The header is the copy of that of the inner problem with another best parameter. *)
Definition transform_vars_discretize {C} (inner : problem C) (bs : list bounds) (n : nat)
    : res (problem (discretize_class C)) :=
  let h := head inner in
  if (n =? 0)%nat then UB else
  match best_parameter h with
  | None => UB
  | Some best =>
    do (ws, os) <- align_all n bs best;
    if (0 <? number_of_constraints h)%nat then Err else
    Ok (Build_problem (discretize_class C)
      {| number_of_variables := number_of_variables h; number_of_objectives := number_of_objectives h;
         number_of_constraints := number_of_constraints h; number_of_integer_variables := n;
         is_opt_known := is_opt_known h; best_value := best_value h; best_parameter := Some ws;
         is_tainted := is_tainted h; evaluations := evaluations h; evaluations_constraints := evaluations_constraints h;
         final_target_delta := final_target_delta h; best_observed_fvalue := best_observed_fvalue h;
         best_observed_evaluation := best_observed_evaluation h |}
      {| d_inner := inner; d_bounds := bs; d_offset := os |})
  end.

(** suite_bbob_mixint.c:66 and suite_biobj_mixint.c:84: the cardinality of the variables *)
Definition variable_cardinality : list Z := [2; 4; 8; 16; 0]%Z.

(** suite_bbob_mixint.c:83-103 with [half] = 5, suite_biobj_mixint.c:112-137 with [half] = 100: bounds of variable i; the
    region of interest of the inner problem is only set where the variable is integer ([low], [high]: what it is before). *)
Definition mixint_bounds (dimension : nat) (half : Z) (low high : double) (i : nat) : res bounds :=
  do c <- mget variable_cardinality (i / (dimension / 5));
  if (c =? 0)%Z
  then Ok {| inner_low := low; inner_high := high; outer_low := dint (- half); outer_high := dint half |}
  else Ok {| inner_low := dint (-4); inner_high := dint 4; outer_low := dint 0; outer_high := dsub (dint c) (dint 1) |}.

(** num_integer of the same loop *)
Fixpoint mixint_integers (dimension fuel i : nat) : res nat :=
  match fuel with
  | O => Ok dimension
  | S fuel' =>
    do c <- mget variable_cardinality (i / (dimension / 5));
    if (c =? 0)%Z then Ok i else mixint_integers dimension fuel' (S i)
  end.

Fixpoint mixint_region (dimension : nat) (half : Z) (roi : list (double * double)) (i : nat) : res (list bounds) :=
  match roi with
  | [] => Ok []
  | (low, high) :: roi' =>
    do b <- mixint_bounds dimension half low high i;
    do bs <- mixint_region dimension half roi' (S i);
    Ok (b :: bs)
  end.

(** suite_bbob_mixint.c:61-109: the continuous problem [inner] with its region of interest [roi] becomes mixed-integer; the
    scaling of the objective and the names are left out. *)
Definition coco_get_bbob_mixint_problem {C} (half : Z) (inner : problem C) (roi : list (double * double))
    : res (problem (discretize_class C)) :=
  let dimension := number_of_variables (head inner) in
  if negb (dimension mod 5 =? 0)%nat then Err else
  do bs <- mixint_region dimension half roi 0;
  do n <- mixint_integers dimension dimension 0;
  transform_vars_discretize inner bs n.
