(** The 24 noiseless functions: raw functions, transformations and the constructors of coco_get_bbob_problem.

    The C code is written once over an abstract arithmetic [arith]; FunSpec.v instantiates it with exact real
    arithmetic.  Vectors are lists, [x.[i]] is x[i] (every index is below the dimension,
    so the default of [nth] is never used for vectors of that length), matrices are lists of rows.  The results of
    the random generators (location and value of the optimum, rotation matrices, permutations) are inputs.
    Not modelled: identifiers, names and types of problems, counters, gradients, constraints (none in these
    functions), freeing of memory, and the asserts [y[0] + 1e-13 >= best_value[0]]. *)

From Coq Require Import ZArith List Bool.
Import ListNotations.

(** The operations of C on double and of math.h; [lit m e] is the literal m * 10^-e, [of_nat] the cast of a size_t,
    coco_pi is the constant of coco.h:110. *)
Record arith := {
  num : Type;
  lit : Z -> Z -> num;
  of_nat : nat -> num;
  add : num -> num -> num;
  sub : num -> num -> num;
  mul : num -> num -> num;
  div : num -> num -> num;
  opp : num -> num;
  abs : num -> num;
  floor : num -> num;
  sqrt : num -> num;
  exp : num -> num;
  log : num -> num;
  sin : num -> num;
  cos : num -> num;
  pow : num -> num -> num;
  coco_pi : num;
  lt : num -> num -> bool;
  le : num -> num -> bool;
  nan : num;
  isnan : num -> bool;
  isinf : num -> bool }.

(** for (i = 0; i < n; ++i) s = f(i, s) *)
Fixpoint loop {S : Type} (n : nat) (f : nat -> S -> S) (s : S) : S :=
  match n with O => s | Datatypes.S k => f k (loop k f s) end.

(** for (i = 0; i < n; ++i) v[i] = f(i) *)
Definition vec {S : Type} (n : nat) (f : nat -> S) : list S := map f (seq 0 n).

Declare Scope fun_scope.

Section Functions.
Variable A : arith.
Notation T := (num A).
Local Notation L := (lit A).
Local Notation "x + y" := (add A x y) : fun_scope.
Local Notation "x - y" := (sub A x y) : fun_scope.
Local Notation "x * y" := (mul A x y) : fun_scope.
Local Notation "x / y" := (div A x y) : fun_scope.
Local Notation "x < y" := (lt A x y) : fun_scope.
Local Notation "x <= y" := (le A x y) : fun_scope.
Local Open Scope fun_scope.

Definition zero : T := L 0 0.
Definition at_ (x : list T) (i : nat) : T := nth i x zero.
Local Notation "x .[ i ]" := (at_ x i) (at level 1, left associativity, format "x .[ i ]").
Definition entry (M : list (list T)) (i j : nat) : T := nth j (nth i M nil) zero.

(** coco_utilities.c:1005-1012 coco_vector_contains_nan. *)
Definition contains_nan (x : list T) : bool := existsb (isnan A) x.
(** coco_utilities.c:916 coco_double_round, 943-949 coco_double_max, 954-960 coco_double_min, 909-911
    coco_double_almost_equal; suite_bbob_legacy_code.c:18 bbob2009_fmin. *)
Definition double_round (x : T) : T := floor A (x + L 5 1).
Definition double_max (a b : T) : T := if b <= a then a else b.
Definition double_min (a b : T) : T := if a <= b then a else b.
Definition almost_equal (a b precision : T) : bool := abs A (a - b) < precision.
Definition fmin (a b : T) : T := if a < b then a else b.

(** The fields of coco_problem_t that these constructors use (one objective). *)
Record problem := {
  dimension : nat;
  evaluate : list T -> T;
  best_parameter : list T;
  best_value : T;
  smallest : list T;
  largest : list T }.

Definition with_evaluate (p : problem) (f : list T -> T) : problem :=
  {| dimension := dimension p; evaluate := fun x => if contains_nan x then nan A else f x;
     best_parameter := best_parameter p; best_value := best_value p; smallest := smallest p; largest := largest p |}.
Definition with_best_parameter (p : problem) (b : list T) : problem :=
  {| dimension := dimension p; evaluate := evaluate p; best_parameter := b; best_value := best_value p;
     smallest := smallest p; largest := largest p |}.
Definition with_best_value (p : problem) (v : T) : problem :=
  {| dimension := dimension p; evaluate := evaluate p; best_parameter := best_parameter p; best_value := v;
     smallest := smallest p; largest := largest p |}.

(** coco_problem.c:281-303 coco_problem_allocate_from_scalars with region of interest [-5, 5], followed in the
    f_*_allocate functions by best_value := evaluate(best_parameter).  Every raw function returns NAN when a
    coordinate is NAN. *)
Definition allocate (n : nat) (raw : list T -> T) (best : T) : problem :=
  let f := fun x => if contains_nan x then nan A else raw x in
  {| dimension := n; evaluate := f; best_parameter := repeat best n; best_value := f (repeat best n);
     smallest := repeat (L (-5) 0) n; largest := repeat (L 5 0) n |}.

(** ** Raw functions *)

(** f_sphere.c:20-34 *)
Definition sphere_raw (n : nat) (x : list T) : T := loop n (fun i r => r + x.[i] * x.[i]) zero.

(** f_ellipsoid.c:32-47; the loop starts at 1, so it is run n - 1 times with the index raised by one. *)
Definition ellipsoid_raw (n : nat) (conditioning : T) (x : list T) : T :=
  loop (n - 1) (fun i r => let i := S i in
    let exponent := L 1 0 * of_nat A i / (of_nat A n - L 1 0) in
    r + pow A conditioning exponent * x.[i] * x.[i]) (x.[0] * x.[0]).

(** coco.h:111 *)
Definition two_pi : T := L 2 0 * coco_pi A.

(** f_rastrigin.c:25-45 *)
Definition rastrigin_raw (n : nat) (x : list T) : T :=
  let s := loop n (fun i (s : T * T) => (fst s + cos A (two_pi * x.[i]), snd s + x.[i] * x.[i])) (zero, zero) in
  if isinf A (snd s) then snd s else L 10 0 * (of_nat A n - fst s) + snd s.

(** f_bueche_rastrigin.c:23-39 *)
Definition bueche_rastrigin_raw (n : nat) (x : list T) : T :=
  let s := loop n (fun i (s : T * T) => (fst s + cos A (L 2 0 * coco_pi A * x.[i]), snd s + x.[i] * x.[i])) (zero, zero) in
  L 10 0 * (of_nat A n - fst s) + snd s + zero.

(** f_linear_slope.c:20-48 *)
Definition linear_slope_raw (n : nat) (best : list T) (x : list T) : T :=
  loop n (fun i r =>
    let base := sqrt A (L 100 0) in
    let exponent := of_nat A i / (of_nat A n - L 1 0) in
    let si := if zero < best.[i] then pow A base exponent else opp A (pow A base exponent) in
    if x.[i] * best.[i] < L 25 0 then r + (L 5 0 * abs A si - si * x.[i])
    else r + (L 5 0 * abs A si - si * best.[i])) zero.

(** f_attractive_sector.c:33-50 *)
Definition attractive_sector_raw (n : nat) (xopt : list T) (x : list T) : T :=
  loop n (fun i r => if zero < xopt.[i] * x.[i] then r + L 100 0 * L 100 0 * x.[i] * x.[i] else r + x.[i] * x.[i]) zero.

(** sum of squared excesses over 5, f_step_ellipsoid.c:57-62, f_gallagher.c:83-88, f_lunacek_bi_rastrigin.c:50-55 *)
Definition excess (n : nat) (bound : T) (x : list T) : T :=
  loop n (fun i p => let tmp := abs A x.[i] - bound in if zero < tmp then p + tmp * tmp else p) zero.

(** f_step_ellipsoid.c:43-99 *)
Definition step_ellipsoid_raw (n : nat) (xopt : list T) (fopt penalty_scale : T) (rot1 rot2 : list (list T)) (x : list T) : T :=
  let condition := L 100 0 in
  let alpha := L 10 0 in
  let penalty := excess n (L 5 0) x * penalty_scale in
  let y := vec n (fun i =>
    let c1 := sqrt A (pow A (condition / L 10 0) (of_nat A i / of_nat A (n - 1))) in
    loop n (fun j r => r + c1 * entry rot2 i j * (x.[j] - xopt.[j])) zero) in
  let x1 := y.[0] in
  let y := vec n (fun i => if L 5 1 < abs A y.[i] then double_round y.[i] else double_round (alpha * y.[i]) / alpha) in
  let xx := vec n (fun i => loop n (fun j r => r + entry rot1 i j * y.[j]) zero) in
  let result := loop n (fun i r =>
    let exponent := of_nat A i / (of_nat A n - L 1 0) in r + pow A condition exponent * xx.[i] * xx.[i]) zero in
  L 1 1 * double_max (abs A x1 * L 1 4) result + penalty + fopt.

(** f_rosenbrock.c:23-44 *)
Definition rosenbrock_raw (n : nat) (x : list T) : T :=
  let s := loop (n - 1) (fun i (s : T * T) =>
    let t1 := x.[i] * x.[i] - x.[S i] in
    let t2 := x.[i] - L 1 0 in (fst s + t1 * t1, snd s + t2 * t2)) (zero, zero) in
  L 100 0 * fst s + snd s.

(** f_discus.c:20-35 *)
Definition discus_raw (n : nat) (x : list T) : T :=
  loop (n - 1) (fun i r => r + x.[S i] * x.[S i]) (L 1000000 0 * x.[0] * x.[0]).

(** f_bent_cigar.c:21-36 *)
Definition bent_cigar_raw (n : nat) (x : list T) : T :=
  loop (n - 1) (fun i r => r + L 1000000 0 * x.[S i] * x.[S i]) (x.[0] * x.[0]).

(** f_sharp_ridge.c:20-44; d_vars_40 = 1.0 and vars_40 = 1 are constants. *)
Definition sharp_ridge_raw (n : nat) (x : list T) : T :=
  let r := loop (n - 1) (fun i r => r + x.[S i] * x.[S i]) zero in
  L 100 0 * sqrt A (r / L 1 0) + x.[0] * x.[0] / L 1 0.

(** f_different_powers.c:23-40 *)
Definition different_powers_raw (n : nat) (x : list T) : T :=
  sqrt A (loop n (fun i s =>
    let exponent := L 2 0 + (L 4 0 * of_nat A i) / (of_nat A n - L 1 0) in s + pow A (abs A x.[i]) exponent) zero).

(** f_weierstrass.c:82-87 and 38-57 *)
Definition weierstrass_ak (j : nat) : T := pow A (L 5 1) (of_nat A j).
Definition weierstrass_bk (j : nat) : T := pow A (L 3 0) (of_nat A j).
Definition weierstrass_f0 : T :=
  loop 12 (fun j f0 => f0 + weierstrass_ak j * cos A (L 2 0 * coco_pi A * weierstrass_bk j * L 5 1)) zero.
Definition weierstrass_raw (n : nat) (x : list T) : T :=
  let result := loop n (fun i r => loop 12 (fun j r =>
    r + cos A (L 2 0 * coco_pi A * (x.[i] + L 5 1) * weierstrass_bk j) * weierstrass_ak j) r) zero in
  L 10 0 * pow A (result / of_nat A n - weierstrass_f0) (L 3 0).

(** f_schaffers.c:26-49.  The early return for an infinite tmp is kept; the second half of its condition (sin returns
    NAN) is what every libm does for an infinite argument. *)
Definition schaffers_raw (n : nat) (x : list T) : T :=
  let r := loop (n - 1) (fun i (r : T + T) =>
    match r with
    | inr v => inr v
    | inl r =>
        let tmp := x.[i] * x.[i] + x.[S i] * x.[S i] in
        if isinf A tmp && isnan A (sin A (L 50 0 * pow A tmp (L 1 1))) then inr tmp
        else inl (r + pow A tmp (L 25 2) * (L 1 0 + pow A (sin A (L 50 0 * pow A tmp (L 1 1))) (L 2 0)))
    end) (inl zero) in
  match r with inr v => v | inl r => pow A (r / (of_nat A n - L 1 0)) (L 2 0) end.

(** f_griewank_rosenbrock.c:32-53 *)
Definition griewank_rosenbrock_raw (n : nat) (facftrue : T) (x : list T) : T :=
  let result := loop (n - 1) (fun i r =>
    let c1 := x.[i] * x.[i] - x.[S i] in
    let c2 := L 1 0 - x.[i] in
    let tmp := L 100 0 * c1 * c1 + c2 * c2 in
    r + (tmp / L 4000 0 - cos A tmp)) zero in
  facftrue + facftrue * result / of_nat A (n - 1).

(** f_schwefel.c:25-51 *)
Definition schwefel_raw (n : nat) (x : list T) : T :=
  let penalty := excess n (L 500 0) x in
  let sum := loop n (fun i s => s + x.[i] * sin A (sqrt A (abs A x.[i]))) zero in
  L 1 2 * (penalty + L 4189828872724339 13 - sum / of_nat A n).

(** f_gallagher.c:41-49, the data of the peaks; [peaks i] etc. are filled by gallagher_data below *)
Record peaks := {
  number_of_peaks : nat;
  x_local : list (list T);    (* x_local[j][i], coordinate j of peak i *)
  arr_scales : list (list T); (* arr_scales[i][j] *)
  peak_values : list T }.

(** the oscillation of a value with factor a = 0.1, f_gallagher.c:112-120 and transform_obj_oscillate.c:26-34,
    transform_vars_oscillate.c:34-49 (the three texts agree up to the names) *)
Definition oscillate (y : T) : T :=
  if zero < y then
    let t := log A y / L 1 1 in pow A (exp A (t + L 49 2 * (sin A t + sin A (L 79 2 * t)))) (L 1 1)
  else if y < zero then
    let t := log A (opp A y) / L 1 1 in opp A (pow A (exp A (t + L 49 2 * (sin A (L 55 2 * t) + sin A (L 31 2 * t)))) (L 1 1))
  else y.

(** f_gallagher.c:68-127 *)
Definition gallagher_raw (n : nat) (penalty_scale : T) (rotation : list (list T)) (d : peaks) (x : list T) : T :=
  let fac := opp A (L 5 1) / of_nat A n in
  let f_pen := excess n (L 5 0) x * penalty_scale in
  let tmx := vec n (fun i => loop n (fun j r => r + entry rotation i j * x.[j]) zero) in
  let f := loop (number_of_peaks d) (fun i f =>
    let tmp2 := loop n (fun j t => let tmp := tmx.[j] - entry (x_local d) j i in t + entry (arr_scales d) i j * tmp * tmp) zero in
    let tmp2 := (peak_values d).[i] * exp A (fac * tmp2) in
    double_max f tmp2) zero in
  let f_true := oscillate (L 10 0 - f) in
  f_true * f_true + f_pen.

(** f_katsuura.c:24-51 *)
Definition katsuura_raw (n : nat) (x : list T) : T :=
  let result := loop n (fun i r =>
    let tmp := loop 32 (fun j t => let tmp2 := pow A (L 2 0) (of_nat A (S j)) in
                 t + abs A (tmp2 * x.[i] - double_round (tmp2 * x.[i])) / tmp2) zero in
    let tmp := L 1 0 + (of_nat A i + L 1 0) * tmp in
    r * pow A tmp (L 10 0 / pow A (of_nat A n) (L 12 1))) (L 1 0) in
  L 10 0 / of_nat A n / of_nat A n * (L (-1) 0 + result).

(** f_lunacek_bi_rastrigin.c:33-92 *)
Definition lunacek_raw (n : nat) (xopt : list T) (rot1 rot2 : list (list T)) (x : list T) : T :=
  let condition := L 100 0 in
  let mu0 := L 25 1 in
  let d := L 1 0 in
  let s := L 1 0 - L 5 1 / (sqrt A (of_nat A (n + 20)) - L 41 1) in
  let mu1 := opp A (sqrt A ((mu0 * mu0 - d) / s)) in
  let penalty := excess n (L 5 0) x in
  let x_hat := vec n (fun i => if xopt.[i] < zero then L 2 0 * x.[i] * L (-1) 0 else L 2 0 * x.[i]) in
  let tmpvect := vec n (fun i =>
    let c1 := pow A (sqrt A condition) (of_nat A i / of_nat A (n - 1)) in
    loop n (fun j r => r + c1 * entry rot2 i j * (x_hat.[j] - mu0)) zero) in
  let z := vec n (fun i => loop n (fun j r => r + entry rot1 i j * tmpvect.[j]) zero) in
  let sum1 := loop n (fun i r => r + (x_hat.[i] - mu0) * (x_hat.[i] - mu0)) zero in
  let sum2 := loop n (fun i r => r + (x_hat.[i] - mu1) * (x_hat.[i] - mu1)) zero in
  let sum3 := loop n (fun i r => r + cos A (L 2 0 * coco_pi A * z.[i])) zero in
  double_min sum1 (d * of_nat A n + s * sum2) + L 10 0 * (of_nat A n - sum3) + L 10000 0 * penalty.

(** ** Transformations.  coco_problem_transformed_allocate (coco_problem.c:850-876) copies the fields of the inner
    problem.  Where a constructor sets the best_parameter of the *inner* problem to NAN (conditioning:100-103,
    asymmetric, brs:75-78) the copy in the new problem is unaffected. *)

(** transform_vars_shift.c:24-50, 113-143 with shift_constraint_only = 0 *)
Definition vars_shift (p : problem) (offset : list T) : problem :=
  let n := dimension p in
  with_best_parameter
    (with_evaluate p (fun x => evaluate p (vec n (fun i => x.[i] - offset.[i]))))
    (vec n (fun i => (best_parameter p).[i] + offset.[i])).

(** transform_vars_scale.c:22-43, 56-73; the test of the constructor is factor != 0. *)
Definition vars_scale (p : problem) (factor : T) : problem :=
  let n := dimension p in
  let q := with_evaluate p (fun x => evaluate p (vec n (fun i => factor * x.[i]))) in
  if (factor < zero) || (zero < factor) then
    with_best_parameter q (vec n (fun i => (best_parameter p).[i] / factor)) else q.

(** coco_problem.c:439-452, coco_utilities.c:1244-1257 (both with tolerance 1e-9) *)
Definition not_zero (x : list T) : bool :=
  contains_nan x || negb (forallb (fun v => almost_equal v zero (L 1 9)) x).

(** coco_utilities.c:1212-1239 for a square matrix *)
Definition is_orthogonal (n : nat) (M : list (list T)) : bool :=
  forallb (fun i => forallb (fun j =>
    let sum := loop n (fun z s => s + entry M i z * entry M j z) zero in
    if Nat.eqb i j then almost_equal sum (L 1 0) (L 1 9) else almost_equal sum zero (L 1 9)) (seq 0 n)) (seq 0 n).

(** transform_vars_affine.c:29-63, 158-213 *)
Definition vars_affine (p : problem) (M : list (list T)) (b : list T) : problem :=
  let n := dimension p in
  let q := with_evaluate p (fun x => evaluate p (vec n (fun i => loop n (fun j r => r + x.[j] * entry M i j) b.[i]))) in
  if not_zero (best_parameter p) || not_zero b then
    if is_orthogonal n M then
      let x := vec n (fun i => (best_parameter p).[i] - b.[i]) in
      with_best_parameter q (vec n (fun i => loop n (fun j r => r + entry M j i * x.[j]) zero))
    else q
  else q.

(** transform_vars_conditioning.c:23-44, 88-105 *)
Definition vars_conditioning (p : problem) (alpha : T) : problem :=
  let n := dimension p in
  with_evaluate p (fun x => evaluate p (vec n (fun i =>
    pow A alpha (L 5 1 * of_nat A i / (of_nat A n - L 1 0)) * x.[i]))).

(** transform_vars_asymmetric.c:36-46, 78-105 *)
Definition vars_asymmetric (p : problem) (beta : T) : problem :=
  let n := dimension p in
  with_evaluate p (fun x => evaluate p (vec n (fun i =>
    if zero < x.[i] then pow A x.[i] (L 1 0 + beta * of_nat A i / (of_nat A n - L 1 0) * sqrt A x.[i]) else x.[i]))).

(** transform_vars_oscillate.c:34-49 (alpha = 0.1; 0.0 is returned for a zero coordinate), 79-106 *)
Definition vars_oscillate (p : problem) : problem :=
  let n := dimension p in
  with_evaluate p (fun x => evaluate p (vec n (fun i =>
    if (zero < x.[i]) || (x.[i] < zero) then oscillate x.[i] else zero))).

(** transform_vars_brs.c:22-53 *)
Definition vars_brs (p : problem) : problem :=
  let n := dimension p in
  with_evaluate p (fun x => evaluate p (vec n (fun i =>
    let factor := pow A (sqrt A (L 10 0)) (of_nat A i / (of_nat A n - L 1 0)) in
    (if (zero < x.[i]) && Nat.even i then factor * L 10 0 else factor) * x.[i]))).

(** transform_vars_z_hat.c:23-43, 57-90 for an inner problem whose identifier contains "schwefel" (the only use) *)
Definition vars_z_hat (p : problem) (xopt : list T) : problem :=
  let n := dimension p in
  with_evaluate p (fun x => evaluate p (vec n (fun i =>
    match i with O => x.[0] | S k => x.[i] + L 25 2 * (x.[k] - L 2 0 * abs A xopt.[k]) end))).

(** transform_vars_x_hat.c:24-49, 62-80; [unif] is what bbob2009_unif returns for the seed. *)
Definition vars_x_hat (p : problem) (unif : list T) : problem :=
  let n := dimension p in
  let q := with_evaluate p (fun x => evaluate p (vec n (fun i => if unif.[i] < L 5 1 then opp A x.[i] else x.[i]))) in
  if not_zero (best_parameter p) then
    with_best_parameter q (vec n (fun i => if unif.[i] < L 5 1 then (best_parameter p).[i] * L (-1) 0 else (best_parameter p).[i]))
  else q.

(** transform_obj_shift.c:21-46, 64-83 *)
Definition obj_shift (p : problem) (offset : T) : problem :=
  with_best_value (with_evaluate p (fun x => evaluate p x + offset)) (best_value p + offset).

(** transform_obj_norm_by_dim.c:15-33; this transformation has no test for NAN of its own, the inner one returns NAN. *)
Definition obj_norm_by_dim (p : problem) : problem :=
  with_evaluate p (fun x => evaluate p x * fmin (L 1 0) (L 40 0 / of_nat A (dimension p))).

(** transform_obj_oscillate.c:15-50 *)
Definition obj_oscillate (p : problem) : problem :=
  let q := with_evaluate p (fun x => oscillate (evaluate p x)) in
  with_best_value q (evaluate q (best_parameter q)).

(** transform_obj_power.c:22-55 *)
Definition obj_power (p : problem) (exponent : T) : problem :=
  let q := with_evaluate p (fun x => pow A (evaluate p x) exponent) in
  with_best_value q (evaluate q (best_parameter q)).

(** transform_obj_penalize.c:22-67 *)
Definition obj_penalize (p : problem) (factor : T) : problem :=
  with_evaluate p (fun x =>
    let penalty := loop (dimension p) (fun i s =>
      let c1 := x.[i] - (largest p).[i] in
      let c2 := (smallest p).[i] - x.[i] in
      if zero < c1 then s + c1 * c1 else if zero < c2 then s + c2 * c2 else s) zero in
    evaluate p x + factor * penalty).

(** ** Constructors *)

(** suite_bbob_legacy_code.c:155-166 bbob2009_copy_rotation_matrix leaves b = 0 *)
Definition zeros (n : nat) : list T := repeat zero n.

(** The product of rot1, a diagonal matrix with entries base^(k/(n-1)) and rot2 computed in f_rastrigin.c:131-142,
    f_attractive_sector.c:125-135, f_sharp_ridge.c:97-107, f_weierstrass.c:128-139, f_katsuura.c:106-116. *)
Definition conditioned (n : nat) (base : T) (rot1 rot2 : list (list T)) : list (list T) :=
  vec n (fun i => vec n (fun j => loop n (fun k r =>
    r + entry rot1 i k * pow A base (L 1 0 * of_nat A k / (of_nat A n - L 1 0)) * entry rot2 k j) zero)).

(** What the random generators deliver for a function and an instance: location and value of the optimum
    (bbob2009_compute_xopt or sbox_cost_compute_xopt, bbob2009_compute_fopt), the rotations for rseed + 1000000 and
    for rseed, bbob2009_unif and bbob2009_gauss for rseed, and for the Gallagher functions the orders in which qsort
    leaves the indices and the numbers from which the peaks are computed. *)
Record draws := {
  xopt : list T;
  fopt : T;
  rot1 : list (list T);
  rot2 : list (list T);
  unif : list T;
  gauss : list T;
  condition_order : list nat;
  scale_order : list (list nat);
  locations : list T }.

(** norm_by_dim is added when the name template contains "BBOB large-scale suite" *)
Definition norm_if (largescale : bool) (p : problem) : problem := if largescale then obj_norm_by_dim p else p.

(** f_sphere.c:77-114 *)
Definition sphere_bbob (n : nat) (large : bool) (d : draws) : problem :=
  obj_shift (norm_if large (vars_shift (allocate n (sphere_raw n) zero) (xopt d))) (fopt d).

(** f_ellipsoid.c:94-127 *)
Definition ellipsoid_bbob (n : nat) (large : bool) (d : draws) : problem :=
  obj_shift (norm_if large (vars_shift (vars_oscillate (allocate n (ellipsoid_raw n (L 1000000 0)) zero)) (xopt d))) (fopt d).

(** f_rastrigin.c:88-129 *)
Definition rastrigin_bbob (n : nat) (large : bool) (d : draws) : problem :=
  obj_shift (norm_if large (vars_shift (vars_oscillate (vars_asymmetric (vars_conditioning
    (allocate n (rastrigin_raw n) zero) (L 10 0)) (L 2 1))) (xopt d))) (fopt d).

(** f_bueche_rastrigin.c:70-114; the even coordinates of xopt are made non-negative *)
Definition bueche_xopt (n : nat) (x : list T) : list T := vec n (fun i => if Nat.even i then abs A x.[i] else x.[i]).
Definition bueche_rastrigin_bbob (n : nat) (large : bool) (d : draws) : problem :=
  obj_penalize (obj_shift (norm_if large (vars_shift (vars_oscillate (vars_brs
    (allocate n (bueche_rastrigin_raw n) zero))) (bueche_xopt n (xopt d)))) (fopt d)) (L 100 0).

(** f_linear_slope.c:86-144 *)
Definition linear_slope_best (n : nat) (x : list T) : list T := vec n (fun i => if x.[i] < zero then L (-5) 0 else L 5 0).
Definition linear_slope_allocate (n : nat) (x : list T) : problem :=
  let best := linear_slope_best n x in
  let q := with_best_parameter (allocate n (linear_slope_raw n best) zero) best in
  with_best_value q (evaluate q best).
Definition linear_slope_bbob (n : nat) (large : bool) (d : draws) : problem :=
  obj_shift (norm_if large (linear_slope_allocate n (xopt d))) (fopt d).

(** f_attractive_sector.c:101-156 *)
Definition attractive_sector_bbob (n : nat) (d : draws) : problem :=
  vars_shift (vars_affine (obj_shift (obj_power (obj_oscillate (allocate n (attractive_sector_raw n (xopt d)) zero))
    (L 9 1)) (fopt d)) (conditioned n (sqrt A (L 10 0)) (rot1 d) (rot2 d)) (zeros n)) (xopt d).

(** f_step_ellipsoid.c:133-181 *)
Definition step_ellipsoid_bbob (n : nat) (penalty_scale : T) (d : draws) : problem :=
  with_best_value (with_best_parameter
    (allocate n (step_ellipsoid_raw n (xopt d) (fopt d) penalty_scale (rot1 d) (rot2 d)) zero) (xopt d)) (fopt d).

(** f_rosenbrock.c:73-122; [block_size] is the dimension outside the large-scale suite *)
Definition rosenbrock_factor (block_size : nat) : T := double_max (L 1 0) (sqrt A (of_nat A block_size) / L 8 0).
Definition rosenbrock_bbob (n : nat) (large : bool) (block_size : nat) (d : draws) : problem :=
  let x := vec n (fun i => (xopt d).[i] * L 75 2) in
  obj_shift (norm_if large (vars_shift (vars_scale (vars_shift (allocate n (rosenbrock_raw n) (L 1 0)) (repeat (L (-1) 0) n))
    (rosenbrock_factor block_size)) x)) (fopt d).

(** f_rosenbrock.c:127-183; the rotation is the one for rseed *)
Definition rosenbrock_rotated_bbob (n : nat) (d : draws) : problem :=
  let factor := rosenbrock_factor n in
  let M := vec n (fun i => vec n (fun j => factor * entry (rot2 d) i j)) in
  let p := with_best_parameter (allocate n (rosenbrock_raw n) (L 1 0)) (zeros n) in
  with_best_parameter (obj_shift (vars_affine p M (repeat (L 5 1) n)) (fopt d))
    (vec n (fun j => loop n (fun i t => t + entry (rot2 d) i j) zero / (L 2 0 * factor))).

(** f_ellipsoid.c:132-171 *)
Definition ellipsoid_rotated_bbob (n : nat) (conditioning : T) (d : draws) : problem :=
  obj_shift (vars_shift (vars_affine (vars_oscillate (allocate n (ellipsoid_raw n conditioning) zero)) (rot1 d) (zeros n))
    (xopt d)) (fopt d).

(** f_discus.c:78-119 *)
Definition discus_bbob (n : nat) (d : draws) : problem :=
  obj_shift (vars_shift (vars_affine (vars_oscillate (allocate n (discus_raw n) zero)) (rot1 d) (zeros n)) (xopt d)) (fopt d).

(** f_bent_cigar.c:80-122; here xopt is computed with rseed + 1000000 *)
Definition bent_cigar_bbob (n : nat) (d : draws) : problem :=
  vars_shift (vars_affine (vars_asymmetric (vars_affine (obj_shift (allocate n (bent_cigar_raw n) zero) (fopt d))
    (rot1 d) (zeros n)) (L 5 1)) (rot1 d) (zeros n)) (xopt d).

(** f_sharp_ridge.c:74-125 *)
Definition sharp_ridge_bbob (n : nat) (d : draws) : problem :=
  vars_shift (vars_affine (obj_shift (allocate n (sharp_ridge_raw n) zero) (fopt d))
    (conditioned n (sqrt A (L 10 0)) (rot1 d) (rot2 d)) (zeros n)) (xopt d).

(** f_different_powers.c:108-148 *)
Definition different_powers_bbob (n : nat) (d : draws) : problem :=
  vars_shift (vars_affine (obj_shift (allocate n (different_powers_raw n) zero) (fopt d)) (rot1 d) (zeros n)) (xopt d).

(** f_rastrigin.c:134-190 *)
Definition rastrigin_rotated_bbob (n : nat) (d : draws) : problem :=
  vars_shift (vars_affine (vars_oscillate (vars_asymmetric (vars_affine
    (obj_shift (allocate n (rastrigin_raw n) zero) (fopt d))
    (conditioned n (sqrt A (L 10 0)) (rot1 d) (rot2 d)) (zeros n)) (L 2 1))) (rot1 d) (zeros n)) (xopt d).

(** f_weierstrass.c:102-163 *)
Definition weierstrass_bbob (n : nat) (d : draws) : problem :=
  obj_penalize (vars_shift (vars_affine (vars_oscillate (vars_affine
    (obj_shift (allocate n (weierstrass_raw n) zero) (fopt d))
    (conditioned n (L 1 0 / sqrt A (L 100 0)) (rot1 d) (rot2 d)) (zeros n))) (rot1 d) (zeros n)) (xopt d))
    (L 10 0 / of_nat A n).

(** f_schaffers.c:78-135 *)
Definition schaffers_bbob (n : nat) (conditioning penalty_scale : T) (d : draws) : problem :=
  let M := vec n (fun i => vec n (fun j =>
    entry (rot2 d) i j * pow A (sqrt A conditioning) (L 1 0 * of_nat A i / (of_nat A n - L 1 0)))) in
  obj_penalize (vars_shift (vars_affine (vars_asymmetric (vars_affine
    (obj_shift (allocate n (schaffers_raw n) zero) (fopt d)) M (zeros n)) (L 5 1)) (rot1 d) (zeros n)) (xopt d)) penalty_scale.

(** f_griewank_rosenbrock.c:87-148; the rotation is the one for rseed, scaled in place *)
Definition griewank_rosenbrock_bbob (n : nat) (facftrue : T) (d : draws) : problem :=
  let scales := rosenbrock_factor n in
  let rot := vec n (fun i => vec n (fun j => entry (rot2 d) i j * scales)) in
  let p := vars_shift (obj_shift (allocate n (griewank_rosenbrock_raw n facftrue) (L 1 0)) (fopt d)) (repeat (opp A (L 5 1)) n) in
  with_best_parameter (vars_affine (with_best_parameter p (zeros n)) rot (zeros n))
    (vec n (fun j => loop n (fun i t => t + entry rot i j) zero / (L 2 0 * scales))).

(** f_schwefel.c:80-126 *)
Definition schwefel_xopt (n : nat) (u : list T) : list T :=
  vec n (fun i => (if u.[i] < L 5 1 then L (-1) 0 else L 1 0) * L 5 1 * L 42096874637 10).
Definition schwefel_bbob (n : nat) (d : draws) : problem :=
  let x := schwefel_xopt n (unif d) in
  let tmp1 := vec n (fun i => L (-2) 0 * abs A x.[i]) in
  let tmp2 := vec n (fun i => L 2 0 * abs A x.[i]) in
  obj_shift (vars_x_hat (vars_scale (vars_z_hat (vars_shift (vars_conditioning (vars_shift (vars_scale
    (allocate n (schwefel_raw n) (L 42096874633 8)) (L 100 0)) tmp1) (L 10 0)) tmp2) x) (L 2 0)) (unif d)) (fopt d).

(** f_gallagher.c:159-293.  [b], [c] and the first condition depend on the number of peaks (201-207); the scale factor is 1
    for the boxed suite (256-259). *)
Definition gallagher_data (n np : nat) (boxed : bool) (first_condition b c : T) (d : draws) : peaks * list T :=
  let maxcondition := L 1000 0 in
  let arr_condition := vec np (fun i =>
    match i with
    | O => first_condition
    | S k => pow A maxcondition (of_nat A (nth k (condition_order d) 0%nat) / of_nat A (np - 2))
    end) in
  let values := vec np (fun i =>
    match i with
    | O => L 10 0
    | S k => of_nat A k / of_nat A (np - 2) * (L 91 1 - L 11 1) + L 11 1
    end) in
  let scales := vec np (fun i => vec n (fun j =>
    pow A arr_condition.[i] (of_nat A (nth j (nth i (scale_order d) nil) 0%nat) / of_nat A (n - 1) - L 5 1))) in
  let scale_factor := if boxed then L 1 0 else L 8 1 in
  let best := vec n (fun i => scale_factor * (b * (locations d).[i] - c)) in
  let local := vec n (fun i => vec np (fun j =>
    let v := loop n (fun k r => r + entry (rot2 d) i k * (b * (locations d).[(j * n + k)%nat] - c)) zero in
    match j with O => v * scale_factor | S _ => v end)) in
  ({| number_of_peaks := np; x_local := local; arr_scales := scales; peak_values := values |}, best).
Definition gallagher_bbob (n np : nat) (boxed : bool) (first_condition b c penalty_scale : T) (d : draws) : problem :=
  let (k, best) := gallagher_data n np boxed first_condition b c d in
  let q := with_best_parameter (allocate n (gallagher_raw n penalty_scale (rot2 d) k) zero) best in
  obj_shift (with_best_value q (evaluate q best)) (fopt d).

(** f_katsuura.c:80-138 *)
Definition katsuura_bbob (n : nat) (d : draws) : problem :=
  obj_penalize (vars_shift (vars_affine (obj_shift (allocate n (katsuura_raw n) zero) (fopt d))
    (conditioned n (sqrt A (L 100 0)) (rot1 d) (rot2 d)) (zeros n)) (xopt d)) (L 1 0).

(** f_lunacek_bi_rastrigin.c:128-187 *)
Definition lunacek_xopt (n : nat) (g : list T) : list T :=
  let v := L 5 1 * L 25 1 in vec n (fun i => if g.[i] < zero then v * L (-1) 0 else v).
Definition lunacek_bbob (n : nat) (d : draws) : problem :=
  let x := lunacek_xopt n (gauss d) in
  let q := with_best_parameter (allocate n (lunacek_raw n x (rot1 d) (rot2 d)) zero) x in
  obj_shift (with_best_value q (evaluate q x)) (fopt d).

(** suite_bbob.c:85-192 coco_get_bbob_problem; None is the coco_error branch.  [boxed] is true for the same constructors
    called by the boxed suite (suite_sbox_cost.c), which differs in the generator of xopt only. *)
Definition get_bbob_problem (function n : nat) (boxed : bool) (d : draws) : option problem :=
  match function with
  | 1 => Some (sphere_bbob n false d)
  | 2 => Some (ellipsoid_bbob n false d)
  | 3 => Some (rastrigin_bbob n false d)
  | 4 => Some (bueche_rastrigin_bbob n false d)
  | 5 => Some (linear_slope_bbob n false d)
  | 6 => Some (attractive_sector_bbob n d)
  | 7 => Some (step_ellipsoid_bbob n (L 1 0) d)
  | 8 => Some (rosenbrock_bbob n false n d)
  | 9 => Some (rosenbrock_rotated_bbob n d)
  | 10 => Some (ellipsoid_rotated_bbob n (L 1000000 0) d)
  | 11 => Some (discus_bbob n d)
  | 12 => Some (bent_cigar_bbob n d)
  | 13 => Some (sharp_ridge_bbob n d)
  | 14 => Some (different_powers_bbob n d)
  | 15 => Some (rastrigin_rotated_bbob n d)
  | 16 => Some (weierstrass_bbob n d)
  | 17 => Some (schaffers_bbob n (L 10 0) (L 10 0) d)
  | 18 => Some (schaffers_bbob n (L 1000 0) (L 10 0) d)
  | 19 => Some (griewank_rosenbrock_bbob n (L 10 0) d)
  | 20 => Some (schwefel_bbob n d)
  | 21 => Some (gallagher_bbob n 101 boxed (sqrt A (L 1000 0)) (L 10 0) (L 5 0) (L 1 0) d)
  | 22 => Some (gallagher_bbob n 21 boxed (L 1000 0) (L 98 1) (L 49 1) (L 1 0) d)
  | 23 => Some (katsuura_bbob n d)
  | 24 => Some (lunacek_bbob n d)
  | _ => None
  end.

End Functions.
