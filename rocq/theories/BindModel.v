(** Model of the calls that evaluate in MATLAB/Octave (build/matlab/cocoCall.c), Rust (build/rust/src/problem.rs) and Java
    (build/java/CocoJNI.c), over the problems of ProbModel.v: what is checked before the C function is called and where the values go. *)
From Coq Require Import List Arith NArith ZArith Bool.
Import ListNotations.
From Verif Require Import CBase DblModel ProbModel.
Local Open Scope nat_scope.

(** The C function writes [values] into a block of memory; beyond its end this is undefined. *)
Definition fill (block values : list double) : res (list double) :=
  if length block <? length values then UB else Ok (values ++ skipn (length values) block).

(** The function called *)
Inductive what := Function | Constraint | Solution.
(** What the caller gets: an error (MATLAB error, panic or exception: the process goes on), or the values *)
Inductive answer := Raised | Values (y : list double).

(** coco_evaluate_function, coco_evaluate_constraint or coco_recommend_solution, writing into a block *)
Definition c_call {C} (p : problem C) (k : what) (x block : list double) : res (answer * problem C) :=
  match k with
  | Function => do (y, q) <- coco_evaluate_function p x; do b <- fill block y; Ok (Values b, q)
  | Constraint => do (y, q) <- coco_evaluate_constraint p x; do b <- fill block y; Ok (Values b, q)
  | Solution => do q <- coco_recommend_solution p x; Ok (Values [], q)
  end.
Definition room {C} (p : problem C) (k : what) : nat :=
  match k with Function => number_of_objectives (head p) | Constraint => number_of_constraints (head p) | Solution => 0 end.

(** A MATLAB array: whether its class is double, number of rows, number of columns (product of all but the first extent, mxGetN), real
    parts column by column.  It has rows * columns values. *)
Record mx := { is_double : bool; rows : nat; columns : nat; reals : list double }.
(** cocoCall.c 12-46, 48-82, 84-111 with two arguments, the first one the handle of p; the new matrix is zero (mxCreateDoubleMatrix) *)
Definition matlab_call {C} (p : problem C) (k : what) (x : mx) : res (answer * problem C) :=
  if negb (is_double x) then Ok (Raised, p) else
  do n <- coco_problem_get_dimension (head p);
  if negb ((columns x =? 1) && (rows x =? n)) && negb ((rows x =? 1) && (columns x =? n)) then Ok (Raised, p)
  else c_call p k (reals x) (repeat dzero (room p k)).

(** problem.rs 91-98 and 105-112: y is a slice with contents; there is no recommend in Rust. *)
Definition rust_call {C} (p : problem C) (k : what) (x y : list double) : res (answer * problem C) :=
  do n <- coco_problem_get_dimension (head p);
  if negb (n =? length x) then Ok (Raised, p)
  else if negb (room p k =? length y) then Ok (Raised, p)
  else c_call p k x y.

(** CocoJNI.c 321-352, 359-390, 397-418: nothing is checked; the C function reads as many values of x as there are variables (an array
    with fewer is left as it is, reading behind its end is undefined in ProbModel.v).  coco_allocate_vector ends the process for length 0
    (coco_runtime_c.c 80-90).  The block is not initialised: it has to be written completely (SetDoubleArrayRegion copies it). *)
Definition java_call {C} (p : problem C) (k : what) (x : list double) : res (answer * problem C) :=
  let x := firstn (number_of_variables (head p)) x in
  match k with
  | Function =>
    if room p k =? 0 then Err else
    do (y, q) <- coco_evaluate_function p x; if length y =? room p k then Ok (Values y, q) else UB
  | Constraint =>
    if room p k =? 0 then Err else
    do (y, q) <- coco_evaluate_constraint p x; if length y =? room p k then Ok (Values y, q) else UB
  | Solution => do q <- coco_recommend_solution p x; Ok (Values [], q)
  end.

(** Programs *)
Fixpoint matlab_calls {C} (p : problem C) (l : list (what * mx)) : res (list answer * problem C) :=
  match l with
  | [] => Ok ([], p)
  | (k, x) :: l' => do (a, p1) <- matlab_call p k x; do (s, p2) <- matlab_calls p1 l'; Ok (a :: s, p2)
  end.
Fixpoint rust_calls {C} (p : problem C) (l : list (what * list double * list double)) : res (list answer * problem C) :=
  match l with
  | [] => Ok ([], p)
  | (k, x, y) :: l' => do (a, p1) <- rust_call p k x y; do (s, p2) <- rust_calls p1 l'; Ok (a :: s, p2)
  end.
Fixpoint java_calls {C} (p : problem C) (l : list (what * list double)) : res (list answer * problem C) :=
  match l with
  | [] => Ok ([], p)
  | (k, x) :: l' => do (a, p1) <- java_call p k x; do (s, p2) <- java_calls p1 l'; Ok (a :: s, p2)
  end.
