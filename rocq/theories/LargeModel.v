(** The 24 functions of the large-scale suite: block rotations and permutations of the variables, the generalised raw
    functions and the constructors called by coco_get_largescale_problem.

    Conventions as in FunModel.v: an abstract arithmetic, vectors as lists, the results of the random generators as
    inputs.  The permutations and the block matrices themselves are the subject of PermModel.v and BlockModel.v.
    Not modelled, besides what FunModel.v leaves out: the self-test called in transform_vars_blockrotation.c:159-162. *)

From Coq Require Import ZArith List Bool.
From Verif Require Import FunModel.
Import ListNotations.

Section Large.
Variable A : arith.
Notation T := (num A).
Notation problem := (problem A).
Local Notation L := (lit A).
Local Notation zero := (zero A).
Local Notation "x + y" := (add A x y) : fun_scope.
Local Notation "x - y" := (sub A x y) : fun_scope.
Local Notation "x * y" := (mul A x y) : fun_scope.
Local Notation "x / y" := (div A x y) : fun_scope.
Local Notation "x < y" := (lt A x y) : fun_scope.
Local Notation "x .[ i ]" := (at_ A x i) (at level 1, left associativity, format "x .[ i ]").
(** problem = transform(problem, ...) *)
Local Notation "p ;; f" := (f p) (at level 61, left associativity, only parsing) : fun_scope.
Local Open Scope fun_scope.

(** A transformation whose evaluation does not test for NAN. *)
Definition with_plain_evaluate (p : problem) (f : list T -> T) : problem :=
  {| dimension := dimension A p; evaluate := f; best_parameter := best_parameter A p; best_value := best_value A p;
     smallest := smallest A p; largest := largest A p |}.

(** coco_problem.c:281-303 followed by best_value := evaluate(best_parameter), for a raw function without a test for
    NAN. *)
Definition allocate_plain (n : nat) (raw : list T -> T) (best : T) : problem :=
  {| dimension := n; evaluate := raw; best_parameter := repeat best n; best_value := raw (repeat best n);
     smallest := repeat (L (-5) 0) n; largest := repeat (L 5 0) n |}.

(** ** Transformations *)

(** transform_vars_blockrotation.c:137-149 and f_gallagher.c:499-509: block_size_map and first_non_zero_map *)
Definition block_step (sizes : list nat) (i : nat) (s : nat * nat * list (nat * nat)) : nat * nat * list (nat * nat) :=
  let '(idx, next, acc) := s in
  let '(idx, next) := if Nat.leb next i then (S idx, Nat.add next (nth (S idx) sizes O)) else (idx, next) in
  let current := nth idx sizes O in
  (idx, next, acc ++ [(current, Nat.sub next current)]).
Definition block_map (n : nat) (sizes : list nat) : list (nat * nat) :=
  snd (loop n (block_step sizes) (O, nth O sizes O, nil)).

(** transform_vars_blockrotation.c:54-75; the row i of [B] holds the entries of its block only. *)
Definition block_apply (n : nat) (sizes : list nat) (B : list (list T)) (x : list T) : list T :=
  let maps := block_map n sizes in
  vec n (fun i =>
    let '(current, first) := nth i maps (O, O) in
    loop current (fun k r => let j := Nat.add first k in r + entry A B i (Nat.sub j first) * x.[j]) zero).

(** transform_vars_blockrotation.c:77-86, 121-165; a best parameter that is not zero is lost *)
Definition vars_blockrotation (B : list (list T)) (sizes : list nat) (p : problem) : problem :=
  let n := dimension A p in
  let q := with_plain_evaluate p (fun x => evaluate A p (block_apply n sizes B x)) in
  if not_zero A (best_parameter A p) then with_best_parameter A q (repeat (nan A) n) else q.

(** transform_vars_permutation.c:20-34, 42-56 *)
Definition vars_permutation (P : list nat) (p : problem) : problem :=
  let n := dimension A p in
  with_plain_evaluate p (fun x => evaluate A p (vec n (fun i => x.[nth i P O]))).

(** for (i = 0; i < n; ++i) y[P[i]] = x[i], starting from an array of which all entries are written when P is a
    permutation *)
Definition set_nth (k : nat) (v : T) (l : list T) : list T := vec (length l) (fun i => if Nat.eqb i k then v else l.[i]).
Definition scatter (n : nat) (P : list nat) (x : list T) (start : list T) : list T :=
  loop n (fun i y => set_nth (nth i P O) x.[i] y) start.

(** transform_vars_permutation.c:58-71, 73-88 *)
Definition vars_inverse_permutation (P : list nat) (p : problem) : problem :=
  let n := dimension A p in
  with_plain_evaluate p (fun x => evaluate A p (scatter n P x (zeros A n))).

(** transform_vars_round_step.c:30-54, 67-91.  The evaluation first writes zhat_1 into the data shared with the innermost
    problem; [inner z] is the inner problem while that number is z.  It is 0 during the construction. *)
Definition round_step (alpha v : T) : T :=
  if L 5 1 < abs A v then double_round A v else double_round A (alpha * v) / alpha.
Definition vars_round_step (alpha : T) (inner : T -> problem) : problem :=
  let p := inner zero in
  let n := dimension A p in
  with_best_parameter A
    (with_plain_evaluate p (fun x => evaluate A (inner (abs A x.[0] * of_nat A n)) (vec n (fun i => round_step alpha x.[i]))))
    (vec n (fun i => round_step alpha (best_parameter A p).[i])).

(** transform_vars_x_hat_generic.c:34-50, 65-86.  Here a vector is written; nothing but the evaluation of the innermost
    problem reads it. *)
Definition vars_x_hat_generic (sign : list T) (inner : list T -> problem) : problem :=
  let p := inner nil in
  let n := dimension A p in
  with_plain_evaluate p (fun x =>
    let x_hat := vec n (fun i => L 2 0 * sign.[i] * x.[i]) in evaluate A (inner x_hat) x_hat).

(** transform_obj_scale.c:21-45, 69-89 *)
Definition obj_scale (factor : T) (p : problem) : problem :=
  with_best_value A (with_evaluate A p (fun x => evaluate A p x * factor)) (best_value A p * factor).

(** ** Raw functions *)

(** nb_long_axes etc.: number_of_variables / 40, plus one if there is a remainder.  f_discus_generalized.c:47-51,
    f_bent_cigar_generalized.c:49-53, f_sharp_ridge_generalized.c:50-54 *)
Definition proportion (n : nat) : nat := Nat.add (Nat.div n 40) (if Nat.eqb (Nat.modulo n 40) 0 then O else 1%nat).

(** f_discus_generalized.c:43-66 *)
Definition discus_generalized_raw (n : nat) (x : list T) : T :=
  let k := proportion n in
  let result := loop k (fun i r => r + x.[i] * x.[i]) zero in
  loop (Nat.sub n k) (fun i r => let i := Nat.add k i in r + x.[i] * x.[i]) (result * L 1000000 0).

(** f_bent_cigar_generalized.c:45-67 *)
Definition bent_cigar_generalized_raw (n : nat) (x : list T) : T :=
  let k := proportion n in
  let result := loop k (fun i r => r + x.[i] * x.[i]) zero in
  loop (Nat.sub n k) (fun i r => let i := Nat.add k i in r + L 1000000 0 * x.[i] * x.[i]) result.

(** f_sharp_ridge_generalized.c:44-76 *)
Definition sharp_ridge_generalized_raw (n : nat) (x : list T) : T :=
  let k := proportion n in
  let result := loop (Nat.sub n k) (fun i r => let i := Nat.add k i in r + x.[i] * x.[i]) zero in
  loop k (fun i r => r + x.[i] * x.[i]) (L 100 0 * sqrt A result).

(** f_step_ellipsoid.c:187-203 *)
Definition step_ellipsoid_core (n : nat) (zhat_1 : T) (x : list T) : T :=
  let result := loop n (fun i r =>
    let exponent := of_nat A i / (of_nat A n - L 1 0) in r + pow A (L 100 0) exponent * x.[i] * x.[i]) zero in
  L 1 1 * double_max A (zhat_1 * L 1 4) result.

(** f_schwefel_generalized.c:25-50 *)
Definition schwefel_generalized_raw (n : nat) (x : list T) : T :=
  let penalty := excess A n (L 500 0) x in
  let result := loop n (fun i s => s + x.[i] * sin A (sqrt A (abs A x.[i]))) zero in
  L 1 2 * (penalty + L 4189828872724339 15 * L 100 0 - result / of_nat A n).

(** f_gallagher.c:349-383; [peak i] evaluates the sub-problem i. *)
Definition gallagher_core (n peaks : nat) (peak : nat -> list T -> T) (x : list T) : T :=
  let maxf := loop peaks (fun i (maxf : option T) =>
    let y := peak i x in
    let w := match i with
             | O => L 10 0
             | _ => L 11 1 + L 8 0 * ((of_nat A i + L 1 0) - L 2 0) / (of_nat A peaks - L 2 0)
             end in
    let y := w * exp A (opp A (L 1 0) / (L 2 0 * of_nat A n) * y) in
    match maxf with None => Some y | Some m => if m < y then Some y else Some m end) None in
  L 10 0 - match maxf with None => zero | Some m => m end.

(** f_lunacek_bi_rastrigin.c:247-273; [sub0] and [sub1] evaluate the two sub-problems. *)
Definition lunacek_core (n : nat) (sub0 sub1 : list T -> T) (x_hat x : list T) : T :=
  let y0 := sub0 x_hat in
  let y1 := sub1 x_hat in
  let result := loop n (fun i r => r - cos A (L 2 0 * coco_pi A * x.[i])) (zero + of_nat A n) in
  result * L 10 0 + double_min A y0 y1.

(** ** Constructors *)

(** What the random generators deliver.  With rseed the seed of the function and instance, [lxopt k] is
    bbob2009_compute_xopt for rseed + k * 1000000, [block k] the block matrix and [perm k] the truncated uniform swap
    permutation for that seed; [sizes] are the block sizes; [lunif], [lgauss] are bbob2009_unif and bbob2009_gauss for
    rseed; [alpha_order] is P_alpha_i and [lambda_order i] the P_Lambda of peak i. *)
Record large_draws := {
  lxopt : nat -> list T;
  lfopt : T;
  sizes : list nat;
  block : nat -> list (list T);
  perm : nat -> list nat;
  lunif : list T;
  lgauss : list T;
  alpha_order : list nat;
  lambda_order : nat -> list nat }.

(** The constructors shared with the other suites use the location and the value of the optimum only. *)
Definition plain_draws (d : large_draws) : draws A :=
  {| xopt := lxopt d 0; fopt := lfopt d; rot1 := nil; rot2 := nil; unif := lunif d; gauss := nil;
     condition_order := nil; scale_order := nil; locations := nil |}.

Definition rotate (k : nat) (d : large_draws) : problem -> problem := vars_blockrotation (block d k) (sizes d).
Definition permute (k : nat) (d : large_draws) : problem -> problem := vars_permutation (perm d k).
Definition shift (o : list T) (p : problem) : problem := vars_shift A p o.
Definition scale (c : T) (p : problem) : problem := vars_scale A p c.
Definition conditioning (a : T) (p : problem) : problem := vars_conditioning A p a.
Definition asymmetric (b : T) (p : problem) : problem := vars_asymmetric A p b.
Definition oscillated (p : problem) : problem := vars_oscillate A p.
Definition norm_by_dim (p : problem) : problem := obj_norm_by_dim A p.
Definition value_oscillated (p : problem) : problem := obj_oscillate A p.
Definition value_power (e : T) (p : problem) : problem := obj_power A p e.
Definition value_shift (v : T) (p : problem) : problem := obj_shift A p v.
Definition penalize (c : T) (p : problem) : problem := obj_penalize A p c.

(** transform_vars_blockrotation_helpers.c:22-28 coco_rotation_matrix_block_size *)
Definition block_size (n : nat) : nat := Nat.min n 40.

(** f_attractive_sector.c:158-247 *)
Definition attractive_sector_large (n : nat) (d : large_draws) : problem :=
  allocate A n (attractive_sector_raw A n (lxopt d 0)) zero ;; norm_by_dim ;; value_oscillated ;; value_power (L 9 1)
  ;; value_shift (lfopt d)
  ;; permute 5 d ;; rotate 1 d ;; permute 4 d ;; conditioning (L 10 0) ;; permute 3 d ;; rotate 0 d ;; permute 2 d
  ;; shift (lxopt d 0).

(** f_step_ellipsoid.c:205-345 *)
Definition step_ellipsoid_large (n : nat) (d : large_draws) : problem :=
  vars_round_step (L 10 0) (fun zhat_1 =>
    allocate_plain n (step_ellipsoid_core n zhat_1) zero ;; permute 5 d ;; rotate 1 d ;; permute 4 d)
  ;; conditioning (L 10 0) ;; permute 3 d ;; rotate 0 d ;; permute 2 d
  ;; shift (lxopt d 0) ;; norm_by_dim ;; penalize (L 1 0) ;; value_shift (lfopt d).

(** f_rosenbrock.c:188-262 *)
Definition rosenbrock_rotated_large (n : nat) (d : large_draws) : problem :=
  let x := vec n (fun i => (lxopt d 0).[i] * L 75 2) in
  allocate A n (rosenbrock_raw A n) (L 1 0) ;; shift (repeat (L (-1) 0) n) ;; scale (rosenbrock_factor A (block_size n))
  ;; permute 3 d ;; rotate 0 d ;; permute 2 d ;; shift x ;; norm_by_dim ;; value_shift (lfopt d).

(** f_ellipsoid.c:176-231 *)
Definition ellipsoid_rotated_large (n : nat) (d : large_draws) : problem :=
  allocate A n (ellipsoid_raw A n (L 1000000 0)) zero ;; oscillated
  ;; permute 3 d ;; rotate 1 d ;; permute 2 d ;; shift (lxopt d 0) ;; norm_by_dim ;; value_shift (lfopt d).

(** f_discus_generalized.c:102-168 *)
Definition discus_large (n : nat) (d : large_draws) : problem :=
  allocate_plain n (discus_generalized_raw n) zero ;; oscillated
  ;; permute 3 d ;; rotate 1 d ;; permute 2 d ;; shift (lxopt d 0) ;; norm_by_dim ;; value_shift (lfopt d).

(** f_bent_cigar_generalized.c:103-165 *)
Definition bent_cigar_large (n : nat) (d : large_draws) : problem :=
  allocate_plain n (bent_cigar_generalized_raw n) zero
  ;; permute 3 d ;; rotate 1 d ;; permute 2 d ;; asymmetric (L 5 1)
  ;; permute 3 d ;; rotate 1 d ;; permute 2 d ;; shift (lxopt d 1) ;; norm_by_dim ;; value_shift (lfopt d).

(** f_sharp_ridge_generalized.c:115-190 *)
Definition sharp_ridge_large (n : nat) (d : large_draws) : problem :=
  allocate A n (sharp_ridge_generalized_raw n) zero
  ;; permute 4 d ;; rotate 1 d ;; permute 3 d ;; conditioning (L 10 0)
  ;; permute 6 d ;; rotate 0 d ;; permute 5 d ;; shift (lxopt d 0) ;; norm_by_dim ;; value_shift (lfopt d).

(** f_different_powers.c:220-285 *)
Definition different_powers_large (n : nat) (d : large_draws) : problem :=
  allocate A n (different_powers_raw A n) zero
  ;; permute 3 d ;; rotate 1 d ;; permute 2 d ;; shift (lxopt d 0) ;; norm_by_dim ;; value_shift (lfopt d).

(** f_rastrigin.c:192-270 *)
Definition rastrigin_rotated_large (n : nat) (d : large_draws) : problem :=
  allocate A n (rastrigin_raw A n) zero
  ;; permute 4 d ;; rotate 1 d ;; permute 3 d ;; conditioning (L 10 0)
  ;; permute 6 d ;; rotate 0 d ;; permute 5 d ;; asymmetric (L 2 1) ;; oscillated
  ;; permute 4 d ;; rotate 1 d ;; permute 3 d ;; shift (lxopt d 0) ;; norm_by_dim ;; value_shift (lfopt d).

(** f_weierstrass.c:168-250 *)
Definition weierstrass_large (n : nat) (d : large_draws) : problem :=
  allocate A n (weierstrass_raw A n) zero
  ;; permute 6 d ;; rotate 1 d ;; permute 5 d ;; conditioning (L 1 0 / L 100 0)
  ;; permute 4 d ;; rotate 0 d ;; permute 3 d ;; oscillated
  ;; permute 6 d ;; rotate 1 d ;; permute 5 d ;; shift (lxopt d 0) ;; penalize (L 10 0 / of_nat A n) ;; value_shift (lfopt d).

(** f_schaffers.c:140-215 *)
Definition schaffers_large (n : nat) (condition penalty_scale : T) (d : large_draws) : problem :=
  allocate A n (schaffers_raw A n) zero ;; conditioning condition
  ;; permute 4 d ;; rotate 0 d ;; permute 3 d ;; asymmetric (L 5 1)
  ;; permute 6 d ;; rotate 1 d ;; permute 5 d ;; shift (lxopt d 0) ;; penalize penalty_scale ;; value_shift (lfopt d).

(** f_griewank_rosenbrock.c:153-238; the sums of the columns of the blocks (203-214) are permuted back (216-219) *)
Definition block_columns (sizes : list nat) (B : list (list T)) (scales : T) : list T :=
  snd (fold_left (fun (s : nat * list T) size =>
    let start := fst s in
    (Nat.add start size,
     snd s ++ vec size (fun j => loop size (fun i tmp => tmp + entry A B (Nat.add start i) j) zero / (L 2 0 * scales))))
    sizes (O, nil)).
Definition griewank_rosenbrock_large (n : nat) (facftrue : T) (d : large_draws) : problem :=
  let scales := rosenbrock_factor A (block_size n) in
  let p := allocate A n (griewank_rosenbrock_raw A n facftrue) (L 1 0) ;; shift (repeat (opp A (L 5 1)) n) ;; scale scales
    ;; permute 3 d ;; rotate 0 d ;; permute 2 d ;; value_shift (lfopt d) in
  with_best_parameter A p (scatter n (perm d 2) (block_columns (sizes d) (block d 0) scales) (best_parameter A p)).

(** f_schwefel_generalized.c:83-130 *)
Definition schwefel_generalized_xopt (n : nat) (u : list T) : list T :=
  vec n (fun i => let v := L 5 1 * L 42096874637 10 in if u.[i] - L 5 1 < zero then v * L (-1) 0 else v).
Definition schwefel_large (n : nat) (d : large_draws) : problem :=
  let x := schwefel_generalized_xopt n (lunif d) in
  let tmp1 := vec n (fun i => L (-2) 0 * abs A x.[i]) in
  let tmp2 := vec n (fun i => L 2 0 * abs A x.[i]) in
  let z_hat := fun p => vars_z_hat A p x in
  let x_hat := fun p => vars_x_hat A p (lunif d) in
  allocate_plain n (schwefel_generalized_raw n) (L 42096874633 8) ;; scale (L 100 0) ;; shift tmp1 ;; conditioning (L 10 0)
  ;; shift tmp2 ;; z_hat ;; scale (L 2 0) ;; x_hat ;; value_shift (lfopt d).

(** f_gallagher.c:437-615.  The sub-problem of a peak is 317-342 with the transformations 568-574. *)
Definition gallagher_peak (n : nat) (alpha : T) (P : list nat) (y : list T) : problem :=
  allocate A n (sphere_raw A n) zero ;; scale (L 1 0 / sqrt A (sqrt A (sqrt A alpha))) ;; conditioning (sqrt A alpha)
  ;; vars_inverse_permutation P ;; shift y.
Definition gallagher_large (n peaks : nat) (first_condition b c : T) (d : large_draws) : problem :=
  let a := L 8 1 in
  let alpha_vals := vec (Nat.sub peaks 1) (fun i => pow A (L 1000 0) (L 2 0 * of_nat A i / of_nat A (Nat.sub peaks 2))) in
  let y := fun peak => vec n (fun i =>
    let v := b * (lunif d).[Nat.add i (Nat.mul peak n)] - c in match peak with O => v * a | _ => v end) in
  let rotated := fun peak => block_apply n (sizes d) (block d 0) (y peak) in
  let alpha := fun peak => match peak with O => first_condition | S k => alpha_vals.[nth k (alpha_order d) O] end in
  let sub := fun peak => gallagher_peak n (alpha peak) (lambda_order d peak) (rotated peak) in
  let core := gallagher_core n peaks (fun peak => evaluate A (sub peak)) in
  let p := with_best_value A (allocate_plain n core zero) (core (rotated O)) ;; rotate 0 d in
  with_best_parameter A p (y O) ;; value_oscillated ;; value_power (L 2 0) ;; penalize (L 1 0) ;; value_shift (lfopt d).

(** f_katsuura.c:143-220 *)
Definition katsuura_large (n : nat) (d : large_draws) : problem :=
  allocate A n (katsuura_raw A n) zero
  ;; permute 6 d ;; rotate 1 d ;; permute 5 d ;; conditioning (L 100 0)
  ;; permute 4 d ;; rotate 0 d ;; permute 3 d ;; shift (lxopt d 0) ;; penalize (L 1 0) ;; value_shift (lfopt d).

(** f_lunacek_bi_rastrigin.c:313-450; the best value is set to 0 (300-308) *)
Definition lunacek_large (n : nat) (d : large_draws) : problem :=
  let one := L 1 0 in
  let s := L 1 0 - L 5 1 / (sqrt A (of_nat A (Nat.add n 20)) - L 41 1) in
  let mu0 := L 25 1 in
  let mu1 := opp A (sqrt A ((mu0 * mu0 - one) / s)) in
  let sphere := allocate A n (sphere_raw A n) zero in
  let sub0 := sphere ;; shift (repeat mu0 n) in
  let sub1 := sphere ;; shift (repeat mu1 n) ;; obj_scale s ;; value_shift (one * of_nat A n) in
  let sign := vec n (fun i => if (lgauss d).[i] < zero then L (-1) 0 else L 1 0) in
  let p := vars_x_hat_generic sign (fun x_hat =>
    with_best_value A (allocate_plain n (lunacek_core n (evaluate A sub0) (evaluate A sub1) x_hat) zero) zero
    ;; permute 6 d ;; rotate 1 d ;; permute 5 d ;; conditioning (L 100 0)
    ;; permute 4 d ;; rotate 0 d ;; permute 3 d ;; shift (repeat mu0 n))
    ;; norm_by_dim ;; penalize (L 10000 0) ;; value_shift (lfopt d) in
  with_best_parameter A p (vec n (fun i => L 5 1 * mu0 * sign.[i])).

(** suite_largescale.c:58-160 coco_get_largescale_problem; None is the coco_error branch.  The seeds of the functions 4
    and 18 are those of 3 and 17. *)
Definition get_largescale_problem (function n : nat) (d : large_draws) : option problem :=
  match function with
  | 1 => Some (sphere_bbob A n true (plain_draws d))
  | 2 => Some (ellipsoid_bbob A n true (plain_draws d))
  | 3 => Some (rastrigin_bbob A n true (plain_draws d))
  | 4 => Some (bueche_rastrigin_bbob A n true (plain_draws d))
  | 5 => Some (linear_slope_bbob A n true (plain_draws d))
  | 6 => Some (attractive_sector_large n d)
  | 7 => Some (step_ellipsoid_large n d)
  | 8 => Some (rosenbrock_bbob A n true (block_size n) (plain_draws d))
  | 9 => Some (rosenbrock_rotated_large n d)
  | 10 => Some (ellipsoid_rotated_large n d)
  | 11 => Some (discus_large n d)
  | 12 => Some (bent_cigar_large n d)
  | 13 => Some (sharp_ridge_large n d)
  | 14 => Some (different_powers_large n d)
  | 15 => Some (rastrigin_rotated_large n d)
  | 16 => Some (weierstrass_large n d)
  | 17 => Some (schaffers_large n (L 10 0) (L 10 0) d)
  | 18 => Some (schaffers_large n (L 1000 0) (L 10 0) d)
  | 19 => Some (griewank_rosenbrock_large n (L 10 0) d)
  | 20 => Some (schwefel_large n d)
  | 21 => Some (gallagher_large n 101 (L 1000 0) (L 10 0) (L 5 0) d)
  | 22 => Some (gallagher_large n 21 (L 1000 0 * L 1000 0) (L 98 1) (L 49 1) d)
  | 23 => Some (katsuura_large n d)
  | 24 => Some (lunacek_large n d)
  | _ => None
  end.

End Large.
