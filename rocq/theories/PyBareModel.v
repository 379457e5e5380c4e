(** Model of BareProblem, build/python/src/cocoex/bare_problem.pyx 34-166: one function of the bbob suite without suite, observer
    and Problem object.  The allocation of the functions 1 to 24 by coco_get_bbob_problem is a parameter. *)
From Coq Require Import List Arith NArith ZArith Ascii String Bool.
From Verif Require Import CBase DblModel StrModel IdModel ProbModel PySuiteModel.
Import ListNotations.
Local Open Scope nat_scope.

Section Bare.
Variable C : class.
Variable allocate : N -> N -> N -> res (problem C).

(** src/suite_bbob.c 85-192: functions outside of 1 to 24 end in coco_error *)
Definition coco_get_bbob_problem (f d i : N) : res (problem C) :=
  if (1 <=? f)%N && (f <=? 24)%N then allocate f d i else Err.

(** Lines 57-62.  [suite_name] points into the Python string given, which the caller keeps alive here. *)
Record bare := mk_bare {
  suite_name : cstr;
  function : Z;
  dimension : Z;
  instance : Z;
  id : cstr;
  object : problem C
}.

(** Conversions of a Python int by Cython *)
Definition c_int (z : Z) : bool := ((- 2 ^ 31 <=? z) && (z <? 2 ^ 31))%Z.
Definition c_size_t (z : Z) : bool := ((0 <=? z) && (z <? 2 ^ 64))%Z.
(** c_string_encoding=ascii; UnicodeEncodeError is a ValueError *)
Definition ascii_text (s : cstr) : bool := forallb (fun c => (N_of_ascii c <? 128)%N) s.

(** Lines 64-104 *)
Definition BareProblem (name : cstr) (f d i : Z) : out bare :=
  if negb (ascii_text name) then Raise ValueError else                            (* 90 *)
  if negb (c_int f && c_int d && c_int i) then Raise OverflowError else           (* 91-93 *)
  if negb (streq name (str "bbob")) then Raise NoSuchSuite else                   (* 95, 100-101 *)
  if negb (c_size_t f && c_size_t d && c_size_t i) then Raise OverflowError else  (* 96 *)
  match coco_get_bbob_problem (Z.to_N f) (Z.to_N d) (Z.to_N i),
        suite_problem_id Bbob (Z.to_N f) (Z.to_N i) (Z.to_N d) with
  | Ok p, Ok t => Ret (mk_bare name f d i t p)
  | _, _ => Dead
  end.

Definition set_object (b : bare) (p : problem C) : bare :=
  mk_bare (suite_name b) (function b) (dimension b) (instance b) (id b) p.

(** What __call__ is given: an array (or list) with one or two indices, or an array with another number of indices.  The values
    of a matrix are in one piece of memory, row after row (rows * columns of them); [suitable] says that it is a C-contiguous array of doubles. *)
Inductive given :=
  | Vector (x : list double)
  | Matrix (suitable : bool) (rows columns : nat) (values : list double)
  | Other.
Inductive result := Number (y : double) | Numbers (ys : list double) | Nothing.

(** coco_evaluate_function on the memory behind a pointer: the C code reads the first number_of_variables values.  Result: y[0]. *)
Definition evaluate_at (p : problem C) (memory : list double) : res (double * problem C) :=
  do (y, q) <- coco_evaluate_function p (firstn (number_of_variables (head p)) memory);
  do y0 <- mget y 0; Ok (y0, q).

(** Lines 157-163: row i begins at the position i * columns *)
Fixpoint rows_from (p : problem C) (columns : nat) (i n : nat) (values : list double) : res (list double * problem C) :=
  match n with
  | O => Ok ([], p)
  | S n' => do (y, q) <- evaluate_at p (skipn (i * columns) values);
            do (ys, r) <- rows_from q columns (S i) n' values; Ok (y :: ys, r)
  end.

(** Lines 139-166 *)
Definition bare_call (b : bare) (x : given) : out result * bare :=
  match x with
  | Vector v => match evaluate_at (object b) v with
                | Ok (y, q) => (Ret (Number y), set_object b q)
                | _ => (Dead, b)
                end
  | Matrix false _ _ _ => (Raise ValueError, b)
  | Matrix true n d values => match rows_from (object b) d 0 n values with
                              | Ok (ys, q) => (Ret (Numbers ys), set_object b q)
                              | _ => (Dead, b)
                              end
  | Other => (Ret Nothing, b)
  end.
Fixpoint bare_calls (b : bare) (xs : list given) : list (out result) * bare :=
  match xs with
  | [] => ([], b)
  | x :: xs' => let '(y, b1) := bare_call b x in let '(ys, b2) := bare_calls b1 xs' in (y :: ys, b2)
  end.

(** Lines 110-112 (coco_problem_get_best_value: best_value[0]) *)
Definition bare_best_value (b : bare) : res double :=
  match best_value (head (object b)) with Some v => mget v 0 | None => UB end.
(** Lines 114-125 *)
Definition bare_best_parameter (b : bare) : option (list double) * bare :=
  let '(x, h) := coco_problem_get_best_parameter (head (object b)) in (x, set_object b (set_head (object b) h)).
(** Lines 127-131 *)
Definition bare_is_tainted (b : bare) : bool := is_tainted (head (object b)).
End Bare.
Arguments suite_name {C}. Arguments function {C}. Arguments dimension {C}. Arguments instance {C}. Arguments id {C}.
Arguments object {C}. Arguments mk_bare {C}. Arguments set_object {C}.
