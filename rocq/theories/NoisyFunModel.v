(** The noisy suite over the abstract arithmetic of FunModel.v: the ten functions it is built from, the three noise models
    as functions of the random numbers, and coco_get_bbob_noisy_problem.  The random numbers of an evaluation are inputs
    (NoiseModel.v and C53 say how they are drawn); identifiers and counters are left out. *)

From Coq Require Import ZArith List Bool.
From Verif Require Import FunModel.
Import ListNotations.

Section Noisy.
Variable A : arith.
Notation T := (num A).
Local Notation L := (lit A).
Local Notation "x + y" := (add A x y) : fun_scope.
Local Notation "x - y" := (sub A x y) : fun_scope.
Local Notation "x * y" := (mul A x y) : fun_scope.
Local Notation "x / y" := (div A x y) : fun_scope.
Local Notation "x < y" := (lt A x y) : fun_scope.
Local Notation "x .[ i ]" := (at_ A x i) (at level 1, format "x .[ i ]") : fun_scope.
Local Open Scope fun_scope.

(** The data of the transformations: transform_obj_gaussian_noise.c:11-13, transform_obj_uniform_noise.c:11-14,
    transform_obj_cauchy_noise.c:10-13. *)
Inductive noise := Gaussian (beta : T) | Uniform (alpha beta : T) | Cauchy (alpha p : T).

(** The numbers an evaluation draws from the uniform and from the Gaussian stream, in this order. *)
Record samples := { uniform1 : T; uniform2 : T; gaussian1 : T; gaussian2 : T }.

(** A problem with noise around an inner problem (coco_problem_transformed_allocate copies the region of interest, the best
    parameter and the best value of the inner problem). *)
Record noisy := { inner : problem A; model : noise }.

(** suite_bbob_noisy_utilities.c:86-101 coco_boundary_handling *)
Definition boundary_handling (p : problem A) (x : list T) : T :=
  let penalty := loop (dimension A p) (fun i s =>
    let lower := (smallest A p).[i] in
    let upper := (largest A p).[i] in
    if upper < x.[i] then s + (x.[i] - upper) * (x.[i] - upper)
    else if x.[i] < lower then s + (x.[i] - lower) * (x.[i] - lower)
    else s) (zero A) in
  L 100 0 * penalty.

(** transform_obj_gaussian_noise.c:18-33, transform_obj_uniform_noise.c:18-40, transform_obj_cauchy_noise.c:18-40: the value
    written to y and the one written to last_noise_free_values. *)
Definition noisy_evaluate (q : noisy) (s : samples) (x : list T) : T * T :=
  let p := inner q in
  let fopt := best_value A p in
  let tol := L 1 8 in
  match model q with
  | Gaussian beta =>
    let factor := exp A (beta * gaussian1 s) in
    let y := evaluate A p x in
    let z := y - fopt in
    let z := z * factor + L 101 2 * tol in
    (z + fopt + boundary_handling p x, y)
  | Uniform alpha beta =>
    let factor := pow A (uniform1 s) beta in
    let y := evaluate A p x in
    let z := y - fopt in
    let scaling := L 1000000000 0 / (z + L 1 99) in
    let scaling := pow A scaling (alpha * uniform2 s) in
    let scaling := if L 1 0 < scaling then scaling else L 1 0 in
    let z := z * (factor * scaling) + L 101 2 * tol in
    (z + fopt + boundary_handling p x, y)
  | Cauchy alpha p0 =>
    let denominator := abs A (gaussian2 s + L 1 199) in
    let c := gaussian1 s / denominator in
    let c := if uniform1 s < p0 then L 1000 0 + c else L 1000 0 in
    let c := alpha * c in
    let c := if zero A < c then c else zero A in
    let y := evaluate A p x in
    (y + c + L 101 2 * tol + boundary_handling p x, y)
  end.

(** suite_bbob_noisy.c:75-303 coco_get_bbob_noisy_problem, the inner problem ... *)
Definition noisy_inner (function n : nat) (d : draws A) : option (problem A) :=
  match function with
  | 101 | 102 | 103 | 107 | 108 | 109 => Some (sphere_bbob A n false d)
  | 104 | 105 | 106 | 110 | 111 | 112 => Some (rosenbrock_bbob A n false n d)
  | 113 | 114 | 115 => Some (step_ellipsoid_bbob A n (L 0 0) d)
  | 116 | 117 | 118 => Some (ellipsoid_rotated_bbob A n (L 10000 0) d)
  | 119 | 120 | 121 => Some (different_powers_bbob A n d)
  | 122 | 123 | 124 => Some (schaffers_bbob A n (L 10 0) (L 0 0) d)
  | 125 | 126 | 127 => Some (griewank_rosenbrock_bbob A n (L 1 0) d)
  | 128 | 129 | 130 => Some (gallagher_bbob A n 101 false (sqrt A (L 1000 0)) (L 10 0) (L 5 0) (L 0 0) d)
  | _ => None
  end.

(** ... and the noise; the error branch (304-308) is None. *)
Definition noisy_model (function n : nat) : option noise :=
  match function with
  | 101 | 104 => Some (Gaussian (L 1 2))
  | 102 | 105 => Some (Uniform (L 1 2 * (L 49 2 + L 1 0 / of_nat A n)) (L 1 2))
  | 103 | 106 => Some (Cauchy (L 1 2) (L 5 2))
  | 107 | 110 | 113 | 116 | 119 | 122 | 125 | 128 => Some (Gaussian (L 1 0))
  | 108 | 111 | 114 | 117 | 120 | 123 | 126 | 129 => Some (Uniform (L 49 2 + L 1 0 / of_nat A n) (L 1 0))
  | 109 | 112 | 115 | 118 | 121 | 124 | 127 | 130 => Some (Cauchy (L 1 0) (L 2 1))
  | _ => None
  end.
Definition get_noisy_problem (function n : nat) (d : draws A) : option noisy :=
  match noisy_inner function n d, noisy_model function n with
  | Some p, Some k => Some {| inner := p; model := k |}
  | _, _ => None
  end.
End Noisy.
