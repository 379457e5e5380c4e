(** Model of src/suite_bbob_noisy_utilities.c, of the noise models of src/transform_obj_gaussian_noise.c,
    src/transform_obj_uniform_noise.c and src/transform_obj_cauchy_noise.c, and of the choice of the noise in
    src/suite_bbob_noisy.c. *)
From Coq Require Import List Arith NArith ZArith Bool.
From Flocq Require Import BinarySingleNaN.
Import ListNotations.
From Verif Require Import CBase OptModel DblModel ProbModel RandModel.

(** suite_bbob_noisy_utilities.c:18-19: the two global variables.  A long has 64 bits. *)
Record seeds := { randseed : Z; randnseed : Z }.
(** Lines 18-19 and 44-47 *)
Definition reset_seeds : seeds := {| randseed := 30; randnseed := 30 |}.

(** Lines 25-29 and 35-39: the body of both functions *)
Definition increase (seed : Z) : Z := (let s := seed + 1 in if s >? 1000000000 then 1 else s)%Z.

Section Noise.
(** The functions of the C library *)
Variable log cos exp : double -> double.
Variable pow : double -> double -> double.

(** Lines 54-62 *)
Definition coco_sample_gaussian_noise (s : seeds) : res (double * seeds) :=
  let n := increase (randnseed s) in
  do g <- bbob2009_gauss log cos 1 n;
  do v <- mget g 0;
  Ok (v, {| randseed := randseed s; randnseed := n |}).

(** Lines 69-76 *)
Definition coco_sample_uniform_noise (s : seeds) : res (double * seeds) :=
  let n := increase (randseed s) in
  do u <- bbob2009_unif 1 n;
  do v <- mget u 0;
  Ok (v, {| randseed := n; randnseed := randnseed s |}).

(** Lines 87-101: the region of interest is a pair of bounds for each variable. *)
Fixpoint penalty_sum (n : nat) (roi : list (double * double)) (x : list double) (penalty : double) : res double :=
  match n with
  | O => Ok penalty
  | S n' =>
    match roi, x with
    | (lower_bound, upper_bound) :: roi', v :: x' =>
      let p := if dlt upper_bound v then dadd penalty (dmul (dsub v upper_bound) (dsub v upper_bound))
               else if dlt v lower_bound then dadd penalty (dmul (dsub v lower_bound) (dsub v lower_bound))
               else penalty in
      penalty_sum n' roi' x' p
    | _, _ => UB
    end
  end.
Definition coco_boundary_handling (n : nat) (roi : list (double * double)) (x : list double) : res double :=
  do penalty <- penalty_sum n roi x dzero;
  Ok (dmul (dint 100) penalty).

(** The noise models with their parameters *)
Inductive noise := Gaussian (beta : double) | Uniform (alpha beta : double) | Cauchy (alpha p : double).

(** 1.01 * tol of all three models *)
Definition offset : double := dmul (ddec 101 2) (ddec 1 8).

(** 1e-199 as the nearest double *)
Definition tiny199 : double := binary_normalize 53 1024 _ _ mode_NE 8618206661096855 (-714) false.

(** What a noise model draws before the evaluation of the inner problem, and the seeds after that.
    transform_obj_gaussian_noise.c:23-24: the factor;
    transform_obj_uniform_noise.c:26-28: the factor and the second random number;
    transform_obj_cauchy_noise.c:26-34: the term added (the second number is not used). *)
Definition draw (k : noise) (s : seeds) : res (double * double * seeds) :=
  match k with
  | Gaussian beta =>
    do (g, s1) <- coco_sample_gaussian_noise s;
    Ok (exp (dmul beta g), dzero, s1)
  | Uniform alpha beta =>
    do (u1, s1) <- coco_sample_uniform_noise s;
    do (u2, s2) <- coco_sample_uniform_noise s1;
    Ok (pow u1 beta, u2, s2)
  | Cauchy alpha p =>
    do (u, s1) <- coco_sample_uniform_noise s;
    do (num, s2) <- coco_sample_gaussian_noise s1;
    do (den, s3) <- coco_sample_gaussian_noise s2;
    let den := dabs (dadd den tiny199) in
    let c := ddiv num den in
    let c := if dlt u p then dadd (dint 1000) c else dint 1000 in
    let c := dmul alpha c in
    Ok (if dlt dzero c then c else dzero, dzero, s3)
  end.

(** The value of the first objective from its noise-free value y, the best value and the penalty:
    transform_obj_gaussian_noise.c:30-32, transform_obj_uniform_noise.c:32-39, transform_obj_cauchy_noise.c:39 *)
Definition disturb (k : noise) (n1 n2 fopt y penalty : double) : double :=
  match k with
  | Gaussian _ =>
    let y := dsub y fopt in
    let y := dadd (dmul y n1) offset in
    dadd (dadd y fopt) penalty
  | Uniform alpha _ =>
    let y := dsub y fopt in
    let scaling := ddiv (dint 1000000000) (dadd y tiny) in
    let scaling := pow scaling (dmul alpha n2) in
    let scaling := if dlt (dint 1) scaling then scaling else dint 1 in
    let y := dadd (dmul y (dmul n1 scaling)) offset in
    dadd (dadd y fopt) penalty
  | Cauchy _ _ => dadd (dadd (dadd y n1) offset) penalty
  end.

(** The problem around an inner problem.  The global seeds are kept here for the time of a call (see [step]). *)
Record noisy (C : class) := {
  n_inner : problem C;
  n_noise : noise;
  n_roi : list (double * double);
  n_seeds : seeds;
  n_free : list double }.
Arguments n_inner {C}. Arguments n_noise {C}. Arguments n_roi {C}. Arguments n_seeds {C}. Arguments n_free {C}.
Definition with_seeds {C} (s : seeds) (d : noisy C) : noisy C :=
  {| n_inner := n_inner d; n_noise := n_noise d; n_roi := n_roi d; n_seeds := s; n_free := n_free d |}.

(** Replaces the first value written. *)
Definition set_first (v : double) (y : list double) : res (list double) := mset y 0 v.

(** The three evaluate functions: the inner problem's own function is called, not coco_evaluate_function, so the
    counters of the inner problem stay.  The best value is read by the Gaussian and the uniform model. *)
Definition noise_evaluate {C} (h : header) (d : noisy C) (x : list double) : res (list double * noisy C) :=
  let inner := n_inner d in
  do fopt <- match n_noise d with
             | Cauchy _ _ => Ok dzero
             | _ => match best_value (head inner) with None => UB | Some v => mget v 0 end
             end;
  do (n, s) <- draw (n_noise d) (n_seeds d);
  let (n1, n2) := n : double * double in
  do (y, d') <- evaluate_function C (head inner) (body inner) x;
  let free := firstn (number_of_objectives h) y in
  do y0 <- mget y 0;
  do penalty <- coco_boundary_handling (number_of_variables h) (n_roi d) x;
  do y' <- set_first (disturb (n_noise d) n1 n2 fopt y0 penalty) y;
  Ok (y', {| n_inner := {| head := head inner; body := d' |}; n_noise := n_noise d; n_roi := n_roi d; n_seeds := s; n_free := free |}).

(** transform_obj_gaussian_noise.c:38-48 and the same lines of the others: a transformed problem with another evaluate
    function and is_noisy 1.  The region of interest is the one of the inner problem. *)
Definition noise_class (C : class) : class :=
  {| data := noisy C;
     evaluate_function := noise_evaluate;
     evaluate_constraint := Some (fun _ d x u =>
       do (v, q) <- coco_evaluate_constraint_optional_update (n_inner d) x u;
       Ok (v, {| n_inner := q; n_noise := n_noise d; n_roi := n_roi d; n_seeds := n_seeds d; n_free := n_free d |}));
     recommend_solution := Some (fun _ d x =>
       do q <- coco_recommend_solution (n_inner d) x;
       Ok {| n_inner := q; n_noise := n_noise d; n_roi := n_roi d; n_seeds := n_seeds d; n_free := n_free d |});
     last_noise_free := fun d => Some (n_free d) |}.
Definition transform_obj_noise {C} (inner : problem C) (k : noise) (roi : list (double * double)) : problem (noise_class C) :=
  Build_problem (noise_class C) (head inner)
    {| n_inner := inner; n_noise := k; n_roi := roi; n_seeds := reset_seeds; n_free := repeat dzero (number_of_objectives (head inner)) |}.

(** A process with several noisy problems: evaluations of any of them, and coco_reset_seeds (which the Python
    interface calls for every new suite, build/python/src/cocoex/interface.pyx:139).  The problems share the seeds. *)
Inductive event := Eval (i : nat) (x : list double) | Reset.
Record process (C : class) := { p_seeds : seeds; p_problems : list (problem (noise_class C)) }.
Arguments p_seeds {C}. Arguments p_problems {C}.

Definition evaluate_with {C} (s : seeds) (P : problem (noise_class C)) (x : list double)
    : res (list double * problem (noise_class C) * seeds) :=
  do (y, Q) <- coco_evaluate_function (set_body P (with_seeds s (body P) : data (noise_class C))) x;
  Ok (y, Q, n_seeds (body Q)).

Definition step {C} (st : process C) (e : event) : res (list double * process C) :=
  match e with
  | Reset => Ok ([], {| p_seeds := reset_seeds; p_problems := p_problems st |})
  | Eval i x =>
    do P <- mget (p_problems st) i;
    do (r, s) <- evaluate_with (p_seeds st) P x;
    let (y, Q) := r : list double * problem (noise_class C) in
    Ok (y, {| p_seeds := s; p_problems := upd (p_problems st) i Q |})
  end.

Fixpoint run {C} (st : process C) (es : list event) : res (list (list double) * process C) :=
  match es with
  | [] => Ok ([], st)
  | e :: es' =>
    do (y, st1) <- step st e;
    do (ys, st2) <- run st1 es';
    Ok (y :: ys, st2)
  end.
End Noise.
Arguments n_inner {C}. Arguments n_noise {C}. Arguments n_roi {C}. Arguments n_seeds {C}. Arguments n_free {C}.
Arguments p_seeds {_ _ _ _ C}. Arguments p_problems {_ _ _ _ C}.

(** suite_bbob_noisy.c:56-303: the number in the seed (rseed = number + 10000 * instance) and the noise of a function. *)
Definition noisy_rseed (function : N) : option N :=
  (let f := function in
   if (f =? 101) || (f =? 102) || (f =? 103) then Some 1
   else if (f =? 104) || (f =? 105) || (f =? 106) then Some 8
   else if (f =? 107) || (f =? 108) || (f =? 109) then Some 1
   else if (f =? 110) || (f =? 111) || (f =? 112) then Some 8
   else if (f =? 113) || (f =? 114) || (f =? 115) then Some 7
   else if (f =? 116) || (f =? 117) || (f =? 118) then Some 10
   else if (f =? 119) || (f =? 120) || (f =? 121) then Some 14
   else if (f =? 122) || (f =? 123) || (f =? 124) then Some 17
   else if (f =? 125) || (f =? 126) || (f =? 127) then Some 19
   else if (f =? 128) || (f =? 129) || (f =? 130) then Some 21
   else None)%N.
Definition uniform_alpha (dimension : Z) : double := dadd (ddec 49 2) (ddiv (dint 1) (dint dimension)).
Definition noisy_noise (function : N) (dimension : Z) : option noise :=
  (let f := function in
   if (f =? 101) || (f =? 104) then Some (Gaussian (ddec 1 2))
   else if (f =? 102) || (f =? 105) then Some (Uniform (dmul (ddec 1 2) (uniform_alpha dimension)) (ddec 1 2))
   else if (f =? 103) || (f =? 106) then Some (Cauchy (ddec 1 2) (ddec 5 2))
   else if (f =? 107) || (f =? 110) || (f =? 113) || (f =? 116) || (f =? 119) || (f =? 122) || (f =? 125) || (f =? 128)
        then Some (Gaussian (dint 1))
   else if (f =? 108) || (f =? 111) || (f =? 114) || (f =? 117) || (f =? 120) || (f =? 123) || (f =? 126) || (f =? 129)
        then Some (Uniform (uniform_alpha dimension) (dint 1))
   else if (f =? 109) || (f =? 112) || (f =? 115) || (f =? 118) || (f =? 121) || (f =? 124) || (f =? 127) || (f =? 130)
        then Some (Cauchy (dint 1) (ddec 2 1))
   else None)%N.
