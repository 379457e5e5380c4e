(** The mixed-integer problems of the suites bbob-mixint and bbob-biobj-mixint (src/suite_bbob_mixint.c,
    src/suite_biobj_mixint.c, src/transform_vars_discretize.c), made of the functions of FunModel.v and LargeModel.v.

    Conventions as in FunModel.v: an abstract arithmetic, vectors as lists, the results of the random generators as inputs.
    MixModel.v is the model of the same transformation in double arithmetic around an arbitrary problem.
    Not modelled: identifiers, names, types, counters, the moves of the data of the inner problems
    (suite_biobj_mixint.c:94-107). *)

From Coq Require Import ZArith NArith List Bool.
From Verif Require Import CBase FunModel PairModel LargeModel StackModel.
Local Open Scope nat_scope.
Import ListNotations.

Section Mixed.
Variable A : arith.
Notation T := (num A).
Notation problem := (problem A).
Local Notation L := (lit A).
Local Notation zero := (zero A).
Local Notation "x + y" := (add A x y) : fun_scope.
Local Notation "x - y" := (sub A x y) : fun_scope.
Local Notation "x * y" := (mul A x y) : fun_scope.
Local Notation "x / y" := (div A x y) : fun_scope.
Local Notation "x < y" := (lt A x y) : fun_scope.
Local Notation "x .[ i ]" := (at_ A x i) (at level 1, left associativity, format "x .[ i ]").
Local Notation "p ;; f" := (f p) (at level 61, left associativity, only parsing) : fun_scope.
Local Open Scope fun_scope.

Definition with_region (low high : list T) (p : problem) : problem :=
  {| dimension := dimension A p; evaluate := evaluate A p; best_parameter := best_parameter A p; best_value := best_value A p;
     smallest := low; largest := high |}.

(** ** The discretisation *)

(** transform_vars_discretize.c:59-62 and 119-122: the first and the last point of the inner interval [l, u].  The bounds of
    the outer interval are integers from 0 on here, for which coco_double_to_int is the rounding. *)
Definition number_of_values (outer_l outer_u : T) : T := double_round A outer_u - double_round A outer_l + L 1 0.
Definition inner_l (l u outer_l outer_u : T) : T := l + (u - l) / (number_of_values outer_l outer_u + L 1 0).
Definition inner_u (l u outer_l outer_u : T) : T := u - (u - l) / (number_of_values outer_l outer_u + L 1 0).

(** transform_vars_discretize.c:64-68 and 126-131 *)
Definition bounded (outer_l outer_u v : T) : T :=
  let v := if v < outer_l then outer_l else v in if outer_u < v then outer_u else v.

(** transform_vars_discretize.c:69-70 without the offset, and 134 *)
Definition inner_coordinate (l u outer_l outer_u v : T) : T :=
  let il := inner_l l u outer_l outer_u in
  let iu := inner_u l u outer_l outer_u in
  il + (iu - il) * (v - outer_l) / (outer_u - outer_l).

(** transform_vars_discretize.c:124-132 *)
Definition outer_xopt (l u outer_l outer_u inner_xopt : T) : T :=
  let il := inner_l l u outer_l outer_u in
  let iu := inner_u l u outer_l outer_u in
  bounded outer_l outer_u (double_round A (outer_l + (outer_u - outer_l) * (inner_xopt - il) / (iu - il) + L 1 7)).

(** transform_vars_discretize.c:36-75, 88-150 *)
Definition vars_discretize (outer_low outer_high : list T) (integers : nat) (p : problem) : problem :=
  let n := dimension A p in
  let best := vec n (fun i =>
    if Nat.ltb i integers
    then outer_xopt (smallest A p).[i] (largest A p).[i] outer_low.[i] outer_high.[i] (best_parameter A p).[i]
    else (best_parameter A p).[i]) in
  let offset := vec n (fun i =>
    if Nat.ltb i integers
    then inner_coordinate (smallest A p).[i] (largest A p).[i] outer_low.[i] outer_high.[i] best.[i] - (best_parameter A p).[i]
    else zero) in
  let q := with_evaluate A p (fun x => evaluate A p (vec n (fun i =>
    if Nat.ltb i integers
    then inner_coordinate (smallest A p).[i] (largest A p).[i] outer_low.[i] outer_high.[i]
           (bounded outer_low.[i] outer_high.[i] (double_round A x.[i])) - offset.[i]
    else x.[i]))) in
  with_region (vec n (fun i => outer_low.[i])) (vec n (fun i => outer_high.[i])) (with_best_parameter A q best).

(** ** The regions of interest *)

(** suite_bbob_mixint.c:67, 85-86 and suite_biobj_mixint.c:81, 113-114 *)
Definition cardinality (n i : nat) : nat := nth (Nat.div i (Nat.div n 5)) [2; 4; 8; 16; 0]%nat O.

(** suite_bbob_mixint.c:75-93 and suite_biobj_mixint.c:79-121: num_integer *)
Definition num_integer (n : nat) : nat :=
  loop n (fun i k => if Nat.eqb (cardinality n i) 0 && Nat.eqb k n then i else k) n.

(** suite_bbob_mixint.c:84-102 with [half] = 5, suite_biobj_mixint.c:112-132 with [half] = 100: the region of interest of the
    outer problem *)
Definition outer_smallest (half : Z) (n : nat) : list T :=
  vec n (fun i => if Nat.eqb (cardinality n i) 0 then L (- half) 0 else zero).
Definition outer_largest (half : Z) (n : nat) : list T :=
  vec n (fun i => if Nat.eqb (cardinality n i) 0 then L half 0 else of_nat A (cardinality n i) - L 1 0).

(** The same lines: the region of interest of the inner problem is overwritten for the integer variables. *)
Definition inner_smallest (n : nat) (p : problem) : list T :=
  vec n (fun i => if Nat.eqb (cardinality n i) 0 then (smallest A p).[i] else L (-4) 0).
Definition inner_largest (n : nat) (p : problem) : list T :=
  vec n (fun i => if Nat.eqb (cardinality n i) 0 then (largest A p).[i] else L 4 0).
Definition overwrite (n : nat) (p : problem) : problem := with_region (inner_smallest n p) (inner_largest n p) p.

(** transform_obj_penalize.c:22-44 reads the region of interest of its own problem whenever it is evaluated.  So when the
    last transformation of a problem is this one, overwriting the region changes the evaluation.  These are the problems
    with this property, as the problem without the penalty and the factor: f_bueche_rastrigin.c:70-114,
    f_weierstrass.c:102-163, f_schaffers.c:78-135, f_katsuura.c:80-138.  All other problems read the bounds inside of
    transformed problems only, whose regions of interest are copies (coco_problem.c:850-876). *)
Definition unpenalised_bueche (n : nat) (large : bool) (d : draws A) : problem :=
  obj_shift A (norm_if A large (vars_shift A (vars_oscillate A (vars_brs A
    (allocate A n (bueche_rastrigin_raw A n) zero))) (bueche_xopt A n (xopt A d)))) (fopt A d).
Definition unpenalised_weierstrass (n : nat) (d : draws A) : problem :=
  vars_shift A (vars_affine A (vars_oscillate A (vars_affine A
    (obj_shift A (allocate A n (weierstrass_raw A n) zero) (fopt A d))
    (conditioned A n (L 1 0 / sqrt A (L 100 0)) (rot1 A d) (rot2 A d)) (zeros A n))) (rot1 A d) (zeros A n)) (xopt A d).
Definition unpenalised_schaffers (n : nat) (conditioning : T) (d : draws A) : problem :=
  let M := vec n (fun i => vec n (fun j =>
    entry A (rot2 A d) i j * pow A (sqrt A conditioning) (L 1 0 * of_nat A i / (of_nat A n - L 1 0)))) in
  vars_shift A (vars_affine A (vars_asymmetric A (vars_affine A
    (obj_shift A (allocate A n (schaffers_raw A n) zero) (fopt A d)) M (zeros A n)) (L 5 1)) (rot1 A d) (zeros A n)) (xopt A d).
Definition unpenalised_katsuura (n : nat) (d : draws A) : problem :=
  vars_shift A (vars_affine A (obj_shift A (allocate A n (katsuura_raw A n) zero) (fopt A d))
    (conditioned A n (sqrt A (L 100 0)) (rot1 A d) (rot2 A d)) (zeros A n)) (xopt A d).

(** coco_get_bbob_problem, then suite_bbob_mixint.c:84-102 or suite_biobj_mixint.c:112-132 *)
Definition overwritten_bbob (function n : nat) (d : draws A) : option problem :=
  match function with
  | 4 => Some (obj_penalize A (overwrite n (unpenalised_bueche n false d)) (L 100 0))
  | 16 => Some (obj_penalize A (overwrite n (unpenalised_weierstrass n d)) (L 10 0 / of_nat A n))
  | 17 => Some (obj_penalize A (overwrite n (unpenalised_schaffers n (L 10 0) d)) (L 10 0))
  | 18 => Some (obj_penalize A (overwrite n (unpenalised_schaffers n (L 1000 0) d)) (L 10 0))
  | 23 => Some (obj_penalize A (overwrite n (unpenalised_katsuura n d)) (L 1 0))
  | _ => option_map (overwrite n) (get_bbob_problem A function n false d)
  end.

(** The same for coco_get_largescale_problem *)
Definition overwritten_largescale (function n : nat) (d : large_draws A) : option problem :=
  match function with
  | 4 => Some (obj_penalize A (overwrite n (unpenalised_bueche n true (plain_draws A d))) (L 100 0))
  | _ => option_map (overwrite n) (get_largescale_problem A function n d)
  end.

(** ** The problems *)

(** suite_bbob_mixint.c:21-27 *)
Definition scaling_factors : list T :=
  [L 1 0; L 1 3; L 1 1; L 1 1; L 1 0;
   L 1 2; L 1 0; L 1 2; L 1 2; L 1 3;
   L 1 2; L 1 4; L 1 1; L 1 0; L 1 1;
   L 1 0; L 10 0; L 1 0; L 10 0; L 1 1;
   L 1 0; L 1 0; L 10 0; L 1 1].

(** suite_bbob_mixint.c:106-108 and suite_biobj_mixint.c:134-144 *)
Definition mixed (half : Z) (function n : nat) (p : problem) : problem :=
  p ;; vars_discretize (outer_smallest half n) (outer_largest half n) (num_integer n)
    ;; obj_scale A (nth (Nat.sub function 1) scaling_factors zero).

(** suite_bbob_mixint.c:141-144, 76-77: the continuous problem, and the dimensions that are refused *)
Definition overwritten_problem (function n : nat) (d : draws A) (e : large_draws A) : res problem :=
  if negb (Nat.eqb (Nat.modulo n 5) 0) then Err else
  match (if Nat.ltb n 50 then overwritten_bbob function n d else overwritten_largescale function n e) with
  | Some p => Ok p
  | None => Err
  end.

(** suite_bbob_mixint.c:61-117, 131-151 *)
Definition get_mixint_problem (function n : nat) (d : draws A) (e : large_draws A) : res problem :=
  do p <- overwritten_problem function n d e;
  Ok (mixed 5 function n p).

(** suite_biobj_mixint.c:68-163, 176-196.  The instances are looked up or searched for as in suite_biobj.c, with the
    continuous problems of the bbob suite in all dimensions (suite_biobj_utilities.c:66-113). *)
Variable draws_of : N -> N -> N -> draws A.
Variable large_draws_of : N -> N -> N -> large_draws A.
Definition get_biobj_mixint_problem (function dimension instance : N) (dimensions : list N) : res (bi_problem A) :=
  if negb (N.eqb (N.modulo dimension 5) 0) then Err else
  do (function1, function2) <- base_functions function;
  do (instance1, instance2) <- base_instances (check_inst_consistency A draws_of) instance dimensions;
  let n := N.to_nat dimension in
  do problem1 <- overwritten_problem (N.to_nat function1) n (draws_of dimension function1 instance1) (large_draws_of dimension function1 instance1);
  do problem2 <- overwritten_problem (N.to_nat function2) n (draws_of dimension function2 instance2) (large_draws_of dimension function2 instance2);
  Ok (stacked_allocate A (mixed 100 (N.to_nat function1) n problem1) (mixed 100 (N.to_nat function2) n problem2)
        (outer_smallest 100 n) (outer_largest 100 n)).

End Mixed.
