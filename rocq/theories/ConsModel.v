(** The constrained suite: linear constraints, objective functions with their gradients, and the constructors of
    coco_get_cons_bbob_problem.

    Written over the abstract arithmetic of FunModel.v.  The random generators are inputs: a generator is given by its
    seed, and what its k-th call (from 0) returns is a function of the seed and k.  Every generator of this code is
    used in a fixed pattern of calls (one uniform number and then normal ones, or uniform ones only), so this loses
    nothing.  Not modelled: identifiers, names and types of problems, counters, warnings, freeing of memory, the asserts
    [y[0] + 1e-13 >= best_value[0]] and the NAN tests of the gradients (they are evaluated at the origin only). *)

From Coq Require Import ZArith List Bool.
From Verif Require Import CBase FunModel.
Import ListNotations.

Section Constrained.
Variable A : arith.
Notation T := (num A).
Local Notation L := (lit A).
Local Notation "x + y" := (add A x y) : fun_scope.
Local Notation "x - y" := (sub A x y) : fun_scope.
Local Notation "x * y" := (mul A x y) : fun_scope.
Local Notation "x / y" := (div A x y) : fun_scope.
Local Notation "x < y" := (lt A x y) : fun_scope.
Local Notation "x <= y" := (le A x y) : fun_scope.
Local Notation "x .[ i ]" := (at_ A x i) (at level 1, left associativity, format "x .[ i ]").
Local Notation zero := (zero A).
Local Notation zeros := (zeros A).
Local Notation problem := (problem A).
Local Open Scope fun_scope.

(** ** Vectors *)

(** coco_utilities.c:1175-1186 coco_vector_norm, 1192-1204 coco_vector_scalar_product *)
Definition vector_norm (n : nat) (x : list T) : T := sqrt A (loop n (fun i s => s + x.[i] * x.[i]) zero).
Definition scalar_product (n : nat) (x y : list T) : T := loop n (fun i s => s + x.[i] * y.[i]) zero.
(** coco_utilities.c:1157-1169 coco_vector_scale *)
Definition nonzero (x : T) : bool := (x < zero) || (zero < x).
Definition vector_scale (n : nat) (x : list T) (nom denom : T) : list T :=
  let nom := if nonzero denom then nom / denom else nom in vec n (fun i => x.[i] * nom).

(** ** One linear constraint *)

(** c_linear.c:18-24 linear_constraint_data_t *)
Record constraint := {
  cgradient : list T;
  cshift : T;
  cnorm : T }.

(** c_linear.c:55-68 c_sum_variables_evaluate *)
Definition sum_variables (n : nat) (x : list T) : T :=
  loop n (fun i y => if (L 1 11 < x.[i]) || (x.[i] < zero) then y + x.[i] else y) zero.

(** c_linear.c:74-94 c_linear_single_evaluate *)
Definition single_evaluate (n : nat) (c : constraint) (x : list T) : T :=
  let factor := cshift c / cnorm c in
  sum_variables n (vec n (fun i => (cgradient c).[i] * (x.[i] - factor * (cgradient c).[i]))).

(** c_linear.c:101-128 c_guarantee_feasible_point; the initial solution is set by [stack] below. *)
Definition guarantee_feasible (n : nat) (c : constraint) (direction : list T) : constraint :=
  if zero < single_evaluate n c direction then
    {| cgradient := vec n (fun i => (cgradient c).[i] * L (-1) 0); cshift := cshift c; cnorm := cnorm c |}
  else c.

(** c_linear.c:164-183 c_linear_transform *)
Definition linear_transform (n : nat) (gradient : list T) (shift_factor : T) : res constraint :=
  let gradient_norm := vector_norm n gradient in
  if gradient_norm <= zero then Err else Ok {| cgradient := gradient; cshift := shift_factor; cnorm := gradient_norm |}.

(** What coco_random_uniform and coco_random_normal return in call k to a generator made with a seed. *)
Record streams := {
  uniform : Z -> nat -> T;
  normal : Z -> nat -> T }.

(** The seeds of c_linear.c:210-211 and 338-340: long, cast to uint32_t. *)
Definition cons_seed (function instance constraint_number : nat) : Z :=
  Z.modulo (Z.of_nat function + 10000 * Z.of_nat instance + 50000 * Z.of_nat constraint_number) (2 ^ 32).

(** c_linear.c:194-264 c_linear_single_cons_bbob_problem_allocate.  A given gradient is scaled in place, but it is
    used for one constraint only. *)
Definition linear_single (s : streams) (function n instance constraint_number : nat) (factor1 : T)
    (gradient : option (list T)) (x_shift_factor : T) (direction : list T) : res constraint :=
  let seed := cons_seed function instance constraint_number in
  let factor2 := pow A (L 100 0) (uniform s seed 0) in
  let g := match gradient with
    | Some g => vector_scale n g (factor1 * factor2) (vector_norm n g)
    | None => vec n (fun i => factor1 * normal s seed (S i) * factor2 / sqrt A (of_nat A n))
    end in
  do c <- linear_transform n g x_shift_factor;
  Ok (guarantee_feasible n c direction).

(** ** All constraints *)

(** The suites bbob-constrained, bbob-constrained-active-only and bbob-constrained-no-disguise; the choice is made in
    c_linear.c:325-329 by the first 28 characters of the template of suite_cons_bbob.c:60-74. *)
Inductive variant := Standard | ActiveOnly | NoDisguise.

(** The variables of the loop of c_linear.c:362-410: i, inactive_constraints_left, the numbers of calls of
    random_generator and random_generator2, linear_combination, the constraint first_constraint_data points to (its
    position) and the constraints stacked so far (evaluate_constraint of a stacked problem returns the values of the
    first and then those of the second, coco_problem.c:918-931). *)
Record building := {
  active_made : nat;
  inactive_left : nat;
  calls1 : nat;
  calls2 : nat;
  combination : list T;
  first : option nat;
  made : list constraint }.

(** c_linear.c:271-293 con_update_linear_combination (gradient is never NULL) *)
Definition update_combination (n : nat) (lc : list T) (c : constraint) (weight : T) : list T :=
  if nonzero weight then vec n (fun i => lc.[i] + weight * (cgradient c).[i]) else lc.

(** What is done with a new constraint, c_linear.c:353-358 and 387-397; 0-based position *)
Definition record_constraint (s : streams) (seed : Z) (n : nat) (b : building) (special : bool) (c : constraint) : building :=
  if nonzero (cshift c) then
    {| active_made := active_made b; inactive_left := inactive_left b; calls1 := calls1 b; calls2 := calls2 b;
       combination := combination b; first := first b; made := made b ++ [c] |}
  else if special then
    {| active_made := active_made b; inactive_left := inactive_left b; calls1 := calls1 b; calls2 := calls2 b;
       combination := combination b; first := Some (length (made b)); made := made b ++ [c] |}
  else
    {| active_made := active_made b; inactive_left := inactive_left b; calls1 := calls1 b; calls2 := S (calls2 b);
       combination := update_combination n (combination b) c (uniform s seed (calls2 b)); first := first b;
       made := made b ++ [c] |}.

Definition counted (b : building) (i left calls : nat) : building :=
  {| active_made := i; inactive_left := left; calls1 := calls; calls2 := calls2 b; combination := combination b;
     first := first b; made := made b |}.

(** One round of the loop, c_linear.c:362-397.  The condition draws a number only if i < number_of_active_constraints;
    an unsigned inactive_constraints_left is tested for <= 0 and then decremented. *)
Definition add_constraint (s : streams) (function n instance active total : nat) (factor1 : T) (gradient_c1 direction : list T)
    (b : building) : res building :=
  let seed := cons_seed function instance 0 in
  let i := active_made b in
  let left := inactive_left b in
  let draw := Nat.ltb i active in
  let calls := if draw then S (calls1 b) else calls1 b in
  if draw && (of_nat A left / of_nat A total < uniform s seed (calls1 b) + L 1 23) then
    let special := Nat.eqb (Nat.modulo (i + instance) active) 0 in
    do c <- linear_single s function n instance (S i) factor1 (if special then Some gradient_c1 else None) zero direction;
    Ok (record_constraint s seed n (counted b (S i) left calls) special c)
  else
    if Nat.eqb left 0 then Err else
    let shift_factor := L 1 2 + L 2 0 * uniform s seed calls in
    let number := if Nat.leb i active then i else Nat.sub total (Nat.sub left 1) in
    do c <- linear_single s function n instance number factor1 None shift_factor direction;
    Ok (record_constraint s seed n (counted b i (Nat.sub left 1) (S calls)) false c).

Fixpoint add_constraints (k : nat) (s : streams) (function n instance active total : nat) (factor1 : T) (gradient_c1 direction : list T)
    (b : building) : res building :=
  match k with
  | O => Ok b
  | S k => do b <- add_constraint s function n instance active total factor1 gradient_c1 direction b;
           add_constraints k s function n instance active total factor1 gradient_c1 direction b
  end.

(** c_linear.c:415-431, the disguise of the gradient *)
Definition disguise (s : streams) (seed : Z) (n : nat) (b : building) : res (list constraint) :=
  match first b with
  | None => UB
  | Some k =>
      match nth_error (made b) k with
      | None => UB
      | Some c =>
          let norm := cnorm c in
          let fac := scalar_product n (combination b) (cgradient c) in
          if fac < zero then Err else
          let fac := if fac <= zero then of_nat A n else double_min A (of_nat A n) (norm * norm / fac) in
          let fac := fac * ((L 1 0 + uniform s seed (calls2 b)) / (L 2 0 + L 1 0 / of_nat A n)) in
          let g := vec n (fun i => (cgradient c).[i] - fac * (combination b).[i]) in
          let new_norm := vector_norm n g in
          if negb (nonzero new_norm) then Err else
          Ok (upd (made b) k {| cgradient := vector_scale n g norm new_norm; cshift := cshift c; cnorm := norm |})
      end
  end.

(** c_linear.c:306-439 c_linear_cons_bbob_problem_allocate, the list of stacked constraints *)
Definition cons_allocate (v : variant) (s : streams) (function n instance active : nat) (direction : list T) : res (list constraint) :=
  let inactive := match v with ActiveOnly => 0 | _ => Nat.div active 2 end in
  let total := Nat.add active inactive in
  let gradient_c1 := vec n (fun i => opp A direction.[i]) in
  let seed := cons_seed function instance 0 in
  let factor1 := L 100 0 * pow A (L 10 0) (uniform s seed 0) in
  let special := Nat.eqb (Nat.modulo instance active) 0 in
  do c <- linear_single s function n instance 1 factor1 (if special then Some gradient_c1 else None) zero direction;
  let b := {| active_made := 1; inactive_left := inactive; calls1 := 1; calls2 := 0; combination := zeros n; first := None; made := [] |} in
  do b <- add_constraints (total - 1) s function n instance active total factor1 gradient_c1 direction
            (record_constraint s seed n b special c);
  if Nat.ltb 1 active && (match v with NoDisguise => false | _ => true end) then disguise s seed n b else Ok (made b).

(** ** Objective functions with gradients *)

Record differentiable := {
  function_of : problem;
  gradient : list T -> list T }.

(** f_sphere.c:49-58 *)
Definition sphere_gradient (n : nat) (x : list T) : list T := vec n (fun i => L 2 0 * x.[i]).
(** f_ellipsoid.c:62-71 *)
Definition ellipsoid_gradient (n : nat) (conditioning : T) (x : list T) : list T := vec n (fun i =>
  let exponent := L 1 0 * of_nat A i / (of_nat A n - L 1 0) in L 2 0 * pow A conditioning exponent * x.[i]).
(** f_linear_slope.c:64-81 *)
Definition slope_gradient (n : nat) (best : list T) (_ : list T) : list T := vec n (fun i =>
  let base := sqrt A (L 100 0) in
  let exponent := of_nat A i / (of_nat A n - L 1 0) in
  let si := if zero < best.[i] then pow A base exponent else opp A (pow A base exponent) in
  opp A si).
(** f_discus.c:50-58, f_bent_cigar.c:51-60 *)
Definition discus_gradient (n : nat) (x : list T) : list T := vec n (fun i =>
  match i with O => L 1000000 0 * L 2 0 * x.[0] | S _ => L 2 0 * x.[i] end).
Definition bent_cigar_gradient (n : nat) (x : list T) : list T := vec n (fun i =>
  match i with O => L 2 0 * x.[0] | S _ => L 2 0 * L 1000000 0 * x.[i] end).
(** f_different_powers.c:55-62 sign, 67-85 *)
Definition sign (x : T) : T := if zero < x then L 1 0 else if x < zero then L (-1) 0 else zero.
Definition different_powers_gradient (n : nat) (x : list T) : list T :=
  let aux := fun i => L 2 0 + (L 4 0 * of_nat A i) / (of_nat A n - L 1 0) in
  let sum := loop n (fun i s => s + pow A (abs A x.[i]) (aux i)) zero in
  vec n (fun i => L 5 1 * aux i / sum * (pow A (abs A x.[i]) (aux i - L 1 0) * sign x.[i])).
(** f_rastrigin.c:62-70 *)
Definition rastrigin_gradient (n : nat) (x : list T) : list T := vec n (fun i =>
  L 2 0 * (L 10 0 * coco_pi A * sin A (two_pi A * x.[i]) + x.[i])).

(** transform_vars_shift.c:79-97 *)
Definition d_shift (p : differentiable) (offset : list T) : differentiable :=
  let n := dimension A (function_of p) in
  {| function_of := vars_shift A (function_of p) offset;
     gradient := fun x => gradient p (vec n (fun i => x.[i] - offset.[i])) |}.
(** transform_vars_affine.c:99-142 *)
Definition d_affine (p : differentiable) (M : list (list T)) (b : list T) : differentiable :=
  let n := dimension A (function_of p) in
  {| function_of := vars_affine A (function_of p) M b;
     gradient := fun x =>
       let y := gradient p (vec n (fun i => loop n (fun j r => r + x.[j] * entry A M i j) b.[i])) in
       vec n (fun j => loop n (fun i g => g + y.[i] * entry A M i j) zero) |}.
(** transform_obj_shift.c:48-60 hands the gradient of the inner problem on *)
Definition d_obj_shift (p : differentiable) (offset : T) : differentiable :=
  {| function_of := obj_shift A (function_of p) offset; gradient := gradient p |}.

Notation draws := (draws A).
Definition d_alloc (n : nat) (raw : list T -> T) (g : list T -> list T) : differentiable :=
  {| function_of := allocate A n raw zero; gradient := g |}.

(** f_sphere.c:77-114 *)
Definition sphere_cons (n : nat) (d : draws) : differentiable :=
  d_obj_shift (d_shift (d_alloc n (sphere_raw A n) (sphere_gradient n)) (xopt _ d)) (fopt _ d).
(** f_ellipsoid.c:237-264, 270-310 *)
Definition ellipsoid_cons (n : nat) (d : draws) : differentiable :=
  d_obj_shift (d_shift (d_alloc n (ellipsoid_raw A n (L 1000000 0)) (ellipsoid_gradient n (L 1000000 0))) (xopt _ d)) (fopt _ d).
Definition ellipsoid_rotated_cons (n : nat) (d : draws) : differentiable :=
  d_obj_shift (d_shift (d_affine (d_alloc n (ellipsoid_raw A n (L 1000000 0)) (ellipsoid_gradient n (L 1000000 0)))
    (rot1 _ d) (zeros n)) (xopt _ d)) (fopt _ d).
(** f_linear_slope.c:86-108, 114-150: the raw function and its gradient use the best parameter of the raw problem *)
Definition linear_slope_cons (n : nat) (d : draws) : differentiable :=
  let best := vec n (fun i => if (xopt _ d).[i] < zero then L (-5) 0 else L 5 0) in
  {| function_of := linear_slope_bbob A n false d; gradient := slope_gradient n best |}.
(** f_discus.c:124-168 *)
Definition discus_cons (n : nat) (d : draws) : differentiable :=
  d_obj_shift (d_shift (d_affine (d_alloc n (discus_raw A n) (discus_gradient n)) (rot1 _ d) (zeros n)) (xopt _ d)) (fopt _ d).
(** f_bent_cigar.c:127-170 *)
Definition bent_cigar_cons (n : nat) (d : draws) : differentiable :=
  d_shift (d_affine (d_obj_shift (d_alloc n (bent_cigar_raw A n) (bent_cigar_gradient n)) (fopt _ d)) (rot1 _ d) (zeros n)) (xopt _ d).
(** f_different_powers.c:153-213 *)
Definition different_powers_cons (n : nat) (d : draws) : differentiable :=
  let result := sqrt A (loop n (fun i r => r + (xopt _ d).[i] * (xopt _ d).[i]) zero) in
  let xo := vec n (fun i => (xopt _ d).[i] * (L 1 2 / result)) in
  d_shift (d_affine (d_obj_shift (d_alloc n (different_powers_raw A n) (different_powers_gradient n)) (fopt _ d)) (rot1 _ d) (zeros n)) xo.
(** f_rastrigin.c:307-331, 336-372; the location is that of f_rastrigin_cons_compute_xopt *)
Definition rastrigin_cons (n : nat) (d : draws) : differentiable :=
  d_obj_shift (d_shift (d_alloc n (rastrigin_raw A n) (rastrigin_gradient n)) (xopt _ d)) (fopt _ d).
Definition rastrigin_rotated_cons (n : nat) (d : draws) : differentiable :=
  d_obj_shift (d_affine (d_shift (d_alloc n (rastrigin_raw A n) (rastrigin_gradient n)) (xopt _ d)) (rot1 _ d) (zeros n)) (fopt _ d).

(** ** Constrained problems *)

(** The objective part, the constraint values and the initial solution ([None]: its computation has not ended) *)
Record constrained := {
  objective : problem;
  constraints : list T -> list T;
  initial : option (list T) }.

(** suite_cons_bbob_problems.c:100-104 (ceil of a sixth), 110-130 *)
Definition obj_function_type (function : nat) : nat := Nat.div (function + 5) 6.
Definition nb_of_linear_constraints (function n : nat) : nat :=
  match Nat.modulo (function - 1) 6 with
  | 0 => 1
  | 1 => 2
  | 2 => 6
  | 3 => Nat.add 6 (Nat.div n 2)
  | 4 => Nat.add 6 n
  | _ => Nat.add 6 (Nat.mul 3 n)
  end.

(** suite_cons_bbob_problems.c:138-161 feasible_direction_set_length; [r] is what bbob2009_unif returns *)
Definition set_length (direction xo : list T) (n : nat) (r : T) : res (list T) :=
  let m := loop n (fun i (m : T * T) =>
    let maxabs := double_max A (fst m) (abs A xo.[i]) in
    let maxrel := double_max A (snd m) (direction.[i] / (L 5 0 - xo.[i])) in
    let maxrel := double_max A maxrel (direction.[i] / (L (-5) 0 - xo.[i])) in
    (maxabs, maxrel)) (zero, zero) in
  if L 5 0 < fst m then Err else
  Ok (vector_scale n direction (L 75 2 + r * (L 1 0 - L 75 2)) (snd m)).

(** coco_problem.c:969-1044 coco_problem_stacked_allocate of an objective and the constraints, then best_parameter := 0
    and best_value := evaluate(0), e.g. suite_cons_bbob_problems.c:198-208; the initial solution is the one of the
    constraints, the feasible direction *)
Definition stack (n : nat) (p : problem) (cs : list constraint) (direction : list T) : constrained :=
  {| objective := {| dimension := n; evaluate := evaluate A p; best_parameter := zeros n; best_value := evaluate A p (zeros n);
                     smallest := repeat (L (-5) 0) n; largest := repeat (L 5 0) n |};
     constraints := fun x => map (fun c => single_evaluate n c x) cs;
     initial := Some direction |}.

(** transform_vars_shift.c:113-143 and 52-74; with shift_constraint_only the objective is not shifted *)
Definition c_shift (p : constrained) (offset : list T) (shift_constraint_only : bool) : constrained :=
  let n := dimension A (objective p) in
  let shifted := fun x => vec n (fun i => x.[i] - offset.[i]) in
  {| objective := if shift_constraint_only
       then with_best_parameter A (objective p) (vec n (fun i => (best_parameter A (objective p)).[i] + offset.[i]))
       else vars_shift A (objective p) offset;
     constraints := fun x => constraints p (shifted x);
     initial := match initial p with Some z => Some (vec n (fun i => z.[i] + offset.[i])) | None => None end |}.

(** transform_vars_oscillate.c:111-142 (the same map of the coordinates as for the objective), 155-172 *)
Definition c_oscillate (p : constrained) : constrained :=
  let n := dimension A (objective p) in
  {| objective := vars_oscillate A (objective p);
     constraints := fun x => constraints p (vec n (fun i =>
       if (zero < x.[i]) || (x.[i] < zero) then oscillate A x.[i] else zero));
     initial := initial p |}.
(** transform_vars_asymmetric.c:110-137, 150-171 *)
Definition c_asymmetric (p : constrained) (beta : T) : constrained :=
  let n := dimension A (objective p) in
  {| objective := vars_asymmetric A (objective p) beta;
     constraints := fun x => constraints p (vec n (fun i =>
       if zero < x.[i] then pow A x.[i] (L 1 0 + beta * of_nat A i / (of_nat A n - L 1 0) * sqrt A x.[i]) else x.[i]));
     initial := initial p |}.
(** transform_obj_scale.c:20-49, 75-95 *)
Definition c_scale (p : constrained) (factor : T) : constrained :=
  {| objective := with_best_value A (with_evaluate A (objective p) (fun x => evaluate A (objective p) x * factor))
       (best_value A (objective p) * factor);
     constraints := constraints p; initial := initial p |}.

(** transform_vars_oscillate.c:182-229, transform_vars_asymmetric.c:181-232, transform_vars_composed.c:28-89: the search
    for the inverse image of the initial solution, halved j times, inside the region of interest.  [inverse i y] is
    what brentinv returns for coordinate i.  The loop has no bound in C; [fuel] bounds the number of rounds.  (A NAN
    ends the search in C with a vector that is partly indeterminate; the arithmetic used below has no NAN.) *)
Fixpoint search (fuel n j : nat) (inverse : nat -> T -> T) (xo start : list T) : option (list T) :=
  match fuel with
  | O => None
  | S fuel =>
      let sol := vec n (fun i => inverse i (start.[i] * pow A (L 5 1) (of_nat A j))) in
      if forallb (fun i => (L (-5) 0 < sol.[i] + xo.[i]) && (sol.[i] + xo.[i] < L 5 0)) (seq 0 n) then Some sol
      else search fuel n (S j) inverse xo start
  end.
Definition c_inverse (fuel : nat) (p : constrained) (inverse : nat -> T -> T) (xo : list T) : constrained :=
  {| objective := objective p; constraints := constraints p;
     initial := match initial p with Some z => search fuel (dimension A (objective p)) 0 inverse xo z | None => None end |}.

(** What the random generators and brentinv deliver for one problem: the location of the constrained optimum, what is
    drawn for the objective function, the length of the feasible direction, the streams of the constraints, and the
    inverses of the oscillation and the asymmetry. *)
Record inputs := {
  location : list T;
  drawn : draws;
  length_draw : T;
  stream : streams;
  inverse_osz : T -> T;
  inverse_asy : nat -> T -> T }.

(** The common beginning of the nine constructors of suite_cons_bbob_problems.c, e.g. 188-199 *)
Definition start (v : variant) (function n instance : nat) (p : differentiable) (q : inputs) : res constrained :=
  do direction <- set_length (gradient p (zeros n)) (location q) n (length_draw q);
  do cs <- cons_allocate v (stream q) function n instance (nb_of_linear_constraints function n) direction;
  Ok (stack n (function_of p) cs direction).

(** suite_cons_bbob.c:46-150 coco_get_cons_bbob_problem with the constructors of suite_cons_bbob_problems.c *)
Definition get_cons_bbob_problem (v : variant) (fuel function n instance : nat) (q : inputs) : res constrained :=
  let xo := location q in
  let osz := fun _ => inverse_osz q in
  let composed := fun i y => inverse_osz q (inverse_asy q i y) in
  let begin := fun f => start v function n instance (f n (drawn q)) q in
  match obj_function_type function with
  | 1 => do p <- begin sphere_cons; Ok (c_scale (c_shift p xo false) (L 10 0))
  | 2 => do p <- begin ellipsoid_cons;
         Ok (c_scale (c_shift (c_inverse fuel (c_oscillate p) osz xo) xo false) (L 1 4))
  | 3 => do p <- begin linear_slope_cons;
         let p := c_shift p xo true in
         let p := {| objective := with_best_value A (objective p) (evaluate A (objective p) (best_parameter A (objective p)));
                     constraints := constraints p; initial := initial p |} in
         Ok (c_scale p (L 10 0))
  | 4 => do p <- begin ellipsoid_rotated_cons;
         Ok (c_scale (c_shift (c_inverse fuel (c_oscillate p) osz xo) xo false) (L 1 4))
  | 5 => do p <- begin discus_cons;
         Ok (c_scale (c_shift (c_inverse fuel (c_oscillate p) osz xo) xo false) (L 1 4))
  | 6 => do p <- begin bent_cigar_cons;
         Ok (c_scale (c_shift (c_inverse fuel (c_asymmetric p (L 2 1)) (inverse_asy q) xo) xo false) (L 1 4))
  | 7 => do p <- begin different_powers_cons; Ok (c_scale (c_shift p xo false) (L 100 0))
  | 8 => do p <- begin rastrigin_cons;
         Ok (c_scale (c_shift (c_inverse fuel (c_oscillate (c_asymmetric p (L 2 1))) composed xo) xo false) (L 10 0))
  | 9 => do p <- begin rastrigin_rotated_cons;
         Ok (c_scale (c_shift (c_inverse fuel (c_oscillate (c_asymmetric p (L 2 1))) composed xo) xo false) (L 10 0))
  | _ => Err
  end.

End Constrained.
