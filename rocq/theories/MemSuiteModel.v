(** Memory of the problems of all suites: the constructors of the benchmark functions, written
    with the statements of MemModel.v, and the functions that put a suite's problem together.
    Properties: MemProps.v. *)
From Coq Require Import List Arith Bool.
From Verif Require Import CBase MemModel.
Import ListNotations.
Local Open Scope nat_scope.

(** Temporaries [n] vectors and the release of the temporaries at the given positions. *)
Definition vectors (n : nat) : list instr := repeat TempVector n.
Definition matrices (n : nat) : list instr := repeat TempMatrix n.
Definition wraps (l : list transformation) : list instr := map Wrap l.
Definition frees (l : list nat) : list instr := map FreeVector l.
Definition free_matrices (l : list nat) : list instr := map FreeMatrix l.
(** if (coco_strfind(problem_name_template, "BBOB large-scale suite") >= 0)
      problem = transform_obj_norm_by_dim(problem); *)
Definition if_large (large : bool) : list instr := if large then [Wrap ObjNormByDim] else [].

(** src/f_sphere.c 77-114; temporaries: xopt. *)
Definition f_sphere_bbob (large : bool) : list instr :=
  vectors 1 ++ [Raw RawPlain; Wrap VarsShift] ++ if_large large ++ [Wrap ObjShift; Label] ++ frees [0].
(** src/f_ellipsoid.c 94-127; xopt. *)
Definition f_ellipsoid_bbob (large : bool) : list instr :=
  vectors 1 ++ [Raw RawData] ++ wraps [VarsOscillate; VarsShift] ++ if_large large ++
  [Wrap ObjShift; Label] ++ frees [0].
(** src/f_rastrigin.c 91-127; xopt. *)
Definition f_rastrigin_bbob (large : bool) : list instr :=
  vectors 1 ++ [Raw RawPlain] ++ wraps [VarsConditioning; VarsAsymmetric; VarsOscillate; VarsShift] ++
  if_large large ++ [Wrap ObjShift; Label] ++ frees [0].
(** src/f_bueche_rastrigin.c 70-114; xopt. *)
Definition f_bueche_rastrigin_bbob (large : bool) : list instr :=
  vectors 1 ++ [Raw RawPlain] ++ wraps [VarsBrs; VarsOscillate; VarsShift] ++ if_large large ++
  wraps [ObjShift; ObjPenalize] ++ [Label] ++ frees [0].
(** src/f_linear_slope.c 113-144; xopt. *)
Definition f_linear_slope_bbob (large : bool) : list instr :=
  vectors 1 ++ [Raw RawPlain] ++ if_large large ++ [Wrap ObjShift; Label] ++ frees [0].
(** src/f_attractive_sector.c 101-156; M, b, xopt, rot1, rot2. *)
Definition f_attractive_sector_bbob : list instr :=
  vectors 3 ++ matrices 2 ++ free_matrices [3; 4] ++ [Raw RawAttractiveSector] ++
  wraps [ObjOscillate; ObjPower; ObjShift; VarsAffine; VarsShift] ++ [Label] ++ frees [0; 1; 2].
(** src/f_step_ellipsoid.c 133-181. *)
Definition f_step_ellipsoid_bbob : list instr := [Raw RawStepEllipsoid; Label].
(** src/f_rosenbrock.c 73-122; minus_one, xopt. *)
Definition f_rosenbrock_bbob (large : bool) : list instr :=
  vectors 2 ++ [Raw RawPlain] ++ wraps [VarsShift; VarsScale; VarsShift] ++ if_large large ++
  [Wrap ObjShift; Label] ++ frees [0; 1].
(** src/f_rosenbrock.c 127-183; M, b, rot1. *)
Definition f_rosenbrock_rotated_bbob : list instr :=
  vectors 2 ++ matrices 1 ++ [Raw RawPlain] ++ wraps [VarsAffine; ObjShift] ++ free_matrices [2] ++
  [Label] ++ frees [0; 1].
(** src/f_ellipsoid.c 132-171; M, b, xopt, rot1. *)
Definition f_ellipsoid_rotated_bbob : list instr :=
  vectors 3 ++ matrices 1 ++ free_matrices [3] ++ [Raw RawData] ++
  wraps [VarsOscillate; VarsAffine; VarsShift; ObjShift] ++ [Label] ++ frees [0; 1; 2].
(** src/f_discus.c 78-119; M, b, xopt, rot1. *)
Definition f_discus_bbob : list instr :=
  vectors 3 ++ matrices 1 ++ free_matrices [3] ++ [Raw RawPlain] ++
  wraps [VarsOscillate; VarsAffine; VarsShift; ObjShift] ++ [Label] ++ frees [0; 1; 2].
(** src/f_bent_cigar.c 80-122; M, b, xopt, rot1. *)
Definition f_bent_cigar_bbob : list instr :=
  vectors 3 ++ matrices 1 ++ free_matrices [3] ++ [Raw RawPlain] ++
  wraps [ObjShift; VarsAffine; VarsAsymmetric; VarsAffine; VarsShift] ++ [Label] ++ frees [0; 1; 2].
(** src/f_sharp_ridge.c 74-125; M, b, xopt, rot1, rot2. *)
Definition f_sharp_ridge_bbob : list instr :=
  vectors 3 ++ matrices 2 ++ free_matrices [3; 4] ++ [Raw RawPlain] ++
  wraps [ObjShift; VarsAffine; VarsShift] ++ [Label] ++ frees [0; 1; 2].
(** src/f_different_powers.c 108-148; M, b, xopt, rot1. *)
Definition f_different_powers_bbob : list instr :=
  vectors 3 ++ matrices 1 ++ free_matrices [3] ++ [Raw RawPlain] ++
  wraps [ObjShift; VarsAffine; VarsShift] ++ [Label] ++ frees [0; 1; 2].
(** src/f_rastrigin.c 132-187; M, b, xopt, rot1, rot2. *)
Definition f_rastrigin_rotated_bbob : list instr :=
  vectors 3 ++ matrices 2 ++ [Raw RawPlain] ++
  wraps [ObjShift; VarsAffine; VarsAsymmetric; VarsOscillate; VarsAffine; VarsShift] ++
  free_matrices [3; 4] ++ [Label] ++ frees [0; 1; 2].
(** src/f_weierstrass.c 102-163; M, b, xopt, rot1, rot2. *)
Definition f_weierstrass_bbob : list instr :=
  vectors 3 ++ matrices 2 ++ [Raw RawWeierstrass] ++
  wraps [ObjShift; VarsAffine; VarsOscillate; VarsAffine; VarsShift; ObjPenalize] ++
  free_matrices [3; 4] ++ [Label] ++ frees [0; 1; 2].
(** src/f_schaffers.c 78-135; M, b, xopt, rot1, rot2. *)
Definition f_schaffers_bbob : list instr :=
  vectors 3 ++ matrices 2 ++ [Raw RawPlain] ++
  wraps [ObjShift; VarsAffine; VarsAsymmetric; VarsAffine; VarsShift; ObjPenalize] ++
  free_matrices [3; 4] ++ [Label] ++ frees [0; 1; 2].
(** src/f_griewank_rosenbrock.c 87-148; M, b, shift, rot1. *)
Definition f_griewank_rosenbrock_bbob : list instr :=
  vectors 3 ++ matrices 1 ++ [Raw RawData] ++ wraps [ObjShift; VarsShift; VarsAffine] ++
  free_matrices [3] ++ [Label] ++ frees [0; 1; 2].
(** src/f_schwefel.c 80-126; tmp1, tmp2, xopt. *)
Definition f_schwefel_bbob : list instr :=
  vectors 3 ++ [Raw RawPlain] ++
  wraps [VarsScale; VarsShift; VarsConditioning; VarsShift; VarsScale; VarsXHat; ObjShift] ++
  [Label] ++ frees [0; 1; 2].
(** src/f_gallagher.c 159-293. *)
Definition f_gallagher_bbob (peaks : nat) : list instr := [Raw (RawGallagher peaks); Wrap ObjShift; Label].
(** src/f_katsuura.c 80-138; M, b, xopt, rot1, rot2. *)
Definition f_katsuura_bbob : list instr :=
  vectors 3 ++ matrices 2 ++ [Raw RawPlain] ++ wraps [ObjShift; VarsAffine; VarsShift; ObjPenalize] ++
  free_matrices [3; 4] ++ [Label] ++ frees [0; 1; 2].
(** src/f_lunacek_bi_rastrigin.c 128-187. *)
Definition f_lunacek_bi_rastrigin_bbob : list instr := [Raw RawLunacek; Wrap ObjShift; Label].

(** coco_get_bbob_problem (src/suite_bbob.c 74-175), the same list in
    coco_get_bbob_boxed_problem (src/suite_sbox_cost.c 88-203); [None]: coco_error. *)
Definition bbob_constructor (f : nat) : option (list instr) :=
  match f with
  | 1 => Some (f_sphere_bbob false)
  | 2 => Some (f_ellipsoid_bbob false)
  | 3 => Some (f_rastrigin_bbob false)
  | 4 => Some (f_bueche_rastrigin_bbob false)
  | 5 => Some (f_linear_slope_bbob false)
  | 6 => Some f_attractive_sector_bbob
  | 7 => Some f_step_ellipsoid_bbob
  | 8 => Some (f_rosenbrock_bbob false)
  | 9 => Some f_rosenbrock_rotated_bbob
  | 10 => Some f_ellipsoid_rotated_bbob
  | 11 => Some f_discus_bbob
  | 12 => Some f_bent_cigar_bbob
  | 13 => Some f_sharp_ridge_bbob
  | 14 => Some f_different_powers_bbob
  | 15 => Some f_rastrigin_rotated_bbob
  | 16 => Some f_weierstrass_bbob
  | 17 => Some f_schaffers_bbob
  | 18 => Some f_schaffers_bbob
  | 19 => Some f_griewank_rosenbrock_bbob
  | 20 => Some f_schwefel_bbob
  | 21 => Some (f_gallagher_bbob 101)
  | 22 => Some (f_gallagher_bbob 21)
  | 23 => Some f_katsuura_bbob
  | 24 => Some f_lunacek_bi_rastrigin_bbob
  | _ => None
  end.

Definition perm_block_perm : list transformation := [VarsPermutation; VarsBlockrotation; VarsPermutation].

(** Large-scale constructors with temporaries P1, P2, block_sizes, xopt, B:
    src/f_ellipsoid.c 176-232, src/f_discus_generalized.c 105-170,
    src/f_bent_cigar_generalized.c 106-170, src/f_different_powers.c 220-283. *)
Definition one_block (r : raw) (l : list transformation) : list instr :=
  vectors 4 ++ matrices 1 ++ [Raw r] ++ wraps (l ++ [ObjNormByDim; ObjShift]) ++ [Label] ++
  free_matrices [4] ++ frees [0; 1; 2; 3].
(** Temporaries P11, P12, P21, P22 (in either order), block_sizes1, block_sizes2, xopt, B1, B2:
    src/f_sharp_ridge_generalized.c 115-194, src/f_rastrigin.c 192-279, src/f_weierstrass.c 168-250,
    src/f_schaffers.c 140-219, src/f_katsuura.c 143-236. *)
Definition two_blocks (r : raw) (l : list transformation) : list instr :=
  vectors 7 ++ matrices 2 ++ [Raw r] ++ wraps l ++ [Label] ++
  free_matrices [7; 8] ++ frees [0; 1; 2; 3; 4; 5; 6].
(** Temporaries xopt, block_sizes1, block_sizes2, B1, B2, P11, P12, P21, P22:
    src/f_attractive_sector.c 158-246, src/f_step_ellipsoid.c 254-342. *)
Definition two_blocks' (r : raw) (l : list transformation) : list instr :=
  vectors 3 ++ matrices 2 ++ vectors 4 ++ [Raw r] ++ wraps l ++ [Label] ++
  free_matrices [3; 4] ++ frees [5; 6; 7; 8; 1; 2; 0].

(** src/f_rosenbrock.c 188-263; P1, P2, best_parameter, block_sizes, minus_one, xopt, B. *)
Definition f_rosenbrock_permblockdiag : list instr :=
  vectors 6 ++ matrices 1 ++ [Raw RawPlain] ++
  wraps ([VarsShift; VarsScale] ++ perm_block_perm ++ [VarsShift; ObjNormByDim; ObjShift]) ++ [Label] ++
  frees [5; 2; 4] ++ free_matrices [6] ++ frees [0; 1; 3].
(** src/f_griewank_rosenbrock.c 153-237; P1, P2, best_parameter, block_sizes, shift, B. *)
Definition f_griewank_rosenbrock_permblockdiag : list instr :=
  vectors 5 ++ matrices 1 ++ [Raw RawData] ++
  wraps ([VarsShift; VarsScale] ++ perm_block_perm ++ [ObjShift]) ++ [Label] ++
  frees [2; 4] ++ free_matrices [5] ++ frees [0; 1; 3].
(** src/f_schwefel_generalized.c 81-135; tmp1, tmp2, xopt. *)
Definition f_schwefel_generalized : list instr :=
  vectors 3 ++ [Raw RawPlain] ++
  wraps [VarsScale; VarsShift; VarsConditioning; VarsShift; VarsZHat; VarsScale; VarsXHat; ObjShift] ++
  [Label] ++ frees [0; 1; 2].
(** src/f_gallagher.c 433-613; block_sizes, B, (problem), rotation_problem, alpha_i_vals,
    tmp_uniform, P_alpha_i, best_param_before_rotation, best_param_after_rotation, tmp_uniform2. *)
Definition f_gallagher_permblockdiag (peaks : nat) : list instr :=
  vectors 1 ++ matrices 1 ++ [Raw (RawGallagherCore peaks); TempProblem] ++ vectors 6 ++
  wraps [VarsBlockrotation; ObjOscillate; ObjPower; ObjPenalize; ObjShift] ++ [Label] ++
  free_matrices [1] ++ frees [4; 8; 0; 3; 5] ++ [FreeProblem 2] ++ frees [6; 7].
(** src/f_lunacek_bi_rastrigin.c 311-451; block_sizes1, block_sizes2, B1, B2, P11, P12, P21, P22,
    (problem), mu0_vector, mu1_vector, tmp_normal, sign_vector. *)
Definition f_lunacek_bi_rastrigin_permblockdiag : list instr :=
  vectors 2 ++ matrices 2 ++ vectors 4 ++ [Raw RawLunacekCore] ++ vectors 4 ++
  wraps (perm_block_perm ++ [VarsConditioning] ++ perm_block_perm ++
         [VarsShift; VarsXHatGeneric; ObjNormByDim; ObjPenalize; ObjShift]) ++ [Label] ++
  frees [10] ++ free_matrices [2; 3] ++ frees [4; 5; 6; 7; 0; 1; 8; 9; 11].

(** coco_get_largescale_problem (src/suite_largescale.c 58-153). *)
Definition large_constructor (f : nat) : option (list instr) :=
  match f with
  | 1 => Some (f_sphere_bbob true)
  | 2 => Some (f_ellipsoid_bbob true)
  | 3 => Some (f_rastrigin_bbob true)
  | 4 => Some (f_bueche_rastrigin_bbob true)
  | 5 => Some (f_linear_slope_bbob true)
  | 6 => Some (two_blocks' RawAttractiveSector
                ([ObjNormByDim; ObjOscillate; ObjPower; ObjShift] ++ perm_block_perm ++
                 [VarsConditioning] ++ perm_block_perm ++ [VarsShift]))
  | 7 => Some (two_blocks' RawVersatile
                (perm_block_perm ++ [VarsRoundStep; VarsConditioning] ++ perm_block_perm ++
                 [VarsShift; ObjNormByDim; ObjPenalize; ObjShift]))
  | 8 => Some (f_rosenbrock_bbob true)
  | 9 => Some f_rosenbrock_permblockdiag
  | 10 => Some (one_block RawData ([VarsOscillate] ++ perm_block_perm ++ [VarsShift]))
  | 11 => Some (one_block RawVersatile ([VarsOscillate] ++ perm_block_perm ++ [VarsShift]))
  | 12 => Some (one_block RawVersatile
                 (perm_block_perm ++ [VarsAsymmetric] ++ perm_block_perm ++ [VarsShift]))
  | 13 => Some (two_blocks RawVersatile
                 (perm_block_perm ++ [VarsConditioning] ++ perm_block_perm ++
                  [VarsShift; ObjNormByDim; ObjShift]))
  | 14 => Some (one_block RawPlain (perm_block_perm ++ [VarsShift]))
  | 15 => Some (two_blocks RawPlain
                 (perm_block_perm ++ [VarsConditioning] ++ perm_block_perm ++
                  [VarsAsymmetric; VarsOscillate] ++ perm_block_perm ++
                  [VarsShift; ObjNormByDim; ObjShift]))
  | 16 => Some (two_blocks RawWeierstrass
                 (perm_block_perm ++ [VarsConditioning] ++ perm_block_perm ++ [VarsOscillate] ++
                  perm_block_perm ++ [VarsShift; ObjPenalize; ObjShift]))
  | 17 | 18 => Some (two_blocks RawPlain
                 ([VarsConditioning] ++ perm_block_perm ++ [VarsAsymmetric] ++ perm_block_perm ++
                  [VarsShift; ObjPenalize; ObjShift]))
  | 19 => Some f_griewank_rosenbrock_permblockdiag
  | 20 => Some f_schwefel_generalized
  | 21 => Some (f_gallagher_permblockdiag 101)
  | 22 => Some (f_gallagher_permblockdiag 21)
  | 23 => Some (two_blocks RawPlain
                 (perm_block_perm ++ [VarsConditioning] ++ perm_block_perm ++
                  [VarsShift; ObjPenalize; ObjShift]))
  | 24 => Some f_lunacek_bi_rastrigin_permblockdiag
  | _ => None
  end.

(** coco_get_bbob_noisy_problem (src/suite_bbob_noisy.c 56-315): functions 101 to 130, three
    noise models for each of ten functions. *)
Definition noisy_constructor (f : nat) : option (list instr) :=
  if f <? 101 then None
  else match (f - 101) / 3 with
       | 0 | 2 => Some (f_sphere_bbob false)
       | 1 | 3 => Some (f_rosenbrock_bbob false)
       | 4 => Some f_step_ellipsoid_bbob
       | 5 => Some f_ellipsoid_rotated_bbob
       | 6 => Some f_different_powers_bbob
       | 7 => Some f_schaffers_bbob
       | 8 => Some f_griewank_rosenbrock_bbob
       | 9 => Some (f_gallagher_bbob 101)
       | _ => None
       end.

(** suite_toy_get_problem (src/suite_toy.c 43-78). *)
Definition toy_constructor (f : nat) : option (list instr) :=
  match f with
  | 1 => Some [Raw RawPlain]
  | 2 => Some [Raw RawData]
  | 3 => Some [Raw RawPlain]
  | 4 => Some [Raw RawPlain]
  | 5 => Some [Raw RawPlain]
  | 6 => Some [Raw RawPlain]
  | _ => None
  end.

(** Objective functions of the constrained suite by obj_function_type
    (src/suite_cons_bbob.c 84-150, src/suite_cons_bbob_problems.c): f_sphere_bbob_problem_allocate,
    src/f_ellipsoid.c 237-264, f_linear_slope_bbob_problem_allocate, src/f_ellipsoid.c 270-309,
    src/f_discus.c 124-164, src/f_bent_cigar.c 127-165, src/f_different_powers.c 153-214,
    src/f_rastrigin.c 307-331, 336-372 (M, b, rot1, xopt). *)
Definition cons_constructor (k : nat) : option (list instr) :=
  match k with
  | 1 => Some (f_sphere_bbob false)
  | 2 => Some (vectors 1 ++ [Raw RawData] ++ wraps [VarsShift; ObjShift] ++ [Label] ++ frees [0])
  | 3 => Some (f_linear_slope_bbob false)
  | 4 => Some (vectors 3 ++ matrices 1 ++ free_matrices [3] ++ [Raw RawData] ++
               wraps [VarsAffine; VarsShift; ObjShift] ++ [Label] ++ frees [0; 1; 2])
  | 5 => Some (vectors 3 ++ matrices 1 ++ free_matrices [3] ++ [Raw RawPlain] ++
               wraps [VarsAffine; VarsShift; ObjShift] ++ [Label] ++ frees [0; 1; 2])
  | 6 => Some (vectors 3 ++ matrices 1 ++ free_matrices [3] ++ [Raw RawPlain] ++
               wraps [ObjShift; VarsAffine; VarsShift] ++ [Label] ++ frees [0; 1; 2])
  | 7 => Some (vectors 3 ++ matrices 1 ++ free_matrices [3] ++ [Raw RawPlain] ++
               wraps [ObjShift; VarsAffine; VarsShift] ++ [Label] ++ frees [0; 1; 2])
  | 8 => Some (vectors 1 ++ [Raw RawPlain] ++ wraps [VarsShift; ObjShift] ++ [Label] ++ frees [0])
  | 9 => Some (vectors 2 ++ matrices 1 ++ free_matrices [2] ++ vectors 1 ++ [Raw RawPlain] ++
               wraps [VarsShift; VarsAffine; ObjShift] ++ [Label] ++ frees [0; 1; 3])
  | _ => None
  end.

(** The nonlinear transformations applied to the stacked problem
    (src/suite_cons_bbob_problems.c 289, 362, 509, 583, 727-728, 801-802). *)
Definition cons_transformations (k : nat) : list transformation :=
  match k with
  | 2 | 4 | 5 => [VarsOscillate]
  | 6 => [VarsAsymmetric]
  | 8 | 9 => [VarsAsymmetric; VarsOscillate]
  | _ => []
  end.

Section Formatting.
Variable null_ok : bool.

Definition construct (c : option (list instr)) (d : nat) : M addr :=
  match c with Some l => run null_ok l d [] None | None => error end.

(** The function that coco_get_problem_function points to: coco_get_bbob_problem or
    coco_get_largescale_problem. *)
Definition get_continuous (large : bool) (f d : nat) : M addr :=
  construct (if large then large_constructor f else bbob_constructor f) d.

(** suite_sbox_cost.c 204: transform_vars_enforce_box around a bbob problem. *)
Definition get_boxed (f d : nat) : M addr :=
  p <-- construct (bbob_constructor f) d ;; transform null_ok VarsEnforceBox p.

(** Each branch of coco_get_bbob_noisy_problem wraps the function into a noise model. *)
Definition get_noisy (f d : nat) : M addr :=
  p <-- construct (noisy_constructor f) d ;; transform null_ok ObjNoise p.

(** coco_get_bbob_mixint_problem (src/suite_bbob_mixint.c 61-117), called with
    coco_get_bbob_problem below dimension 50 and with coco_get_largescale_problem from there on
    (135-145). *)
Definition get_mixint (f d : nat) : M addr :=
  s <-- alloc Block ;;
  l <-- alloc Block ;;
  p <-- get_continuous (50 <=? d) f d ;;
  q <-- problem_at p ;;
  p1 <-- transform null_ok VarsDiscretize p ;;
  p2 <-- transform null_ok ObjScale p1 ;;
  set_id null_ok p2 [] ;;;
  set_name null_ok p2 [id q] ;;;
  free_block s ;;; free_block l ;;;
  ret p2.

(** c_linear_single_cons_bbob_problem_allocate (src/c_linear.c 215-288) with c_linear_transform and
    c_guarantee_feasible_point; [given]: the gradient is an argument. *)
Definition linear_constraint (given : bool) (d : nat) : M addr :=
  p <-- coco_problem_allocate d 0 1 ;;
  set_id null_ok p [] ;;;
  rng <-- alloc Block ;;
  p1 <-- (if given then transform null_ok LinearConstraint p
          else around (transform null_ok LinearConstraint p)) ;;
  s <-- alloc Block ;;
  q <-- problem_at p1 ;;
  write p1 (ProblemCell (with_initial q (Some s))) ;;;
  set_id null_ok p1 [] ;;; set_name null_ok p1 [] ;;; set_type null_ok p1 [] ;;;
  free_block rng ;;;
  ret p1.

(** The loop of c_linear_cons_bbob_problem_allocate (src/c_linear.c 376-421). *)
Fixpoint stack_constraints (l : list bool) (d : nat) (pc : addr) : M addr :=
  match l with
  | [] => ret pc
  | given :: l' =>
    p2 <-- linear_constraint given d ;;
    q2 <-- problem_at p2 ;;
    p <-- stacked_allocate pc p2 (smallest q2) (largest q2) ;;
    q <-- problem_at p ;;
    set_name null_ok p [id q] ;;;
    set_id null_ok p [] ;;;
    q2 <-- problem_at p2 ;;
    set_type null_ok p [type q2; type q2] ;;;
    stack_constraints l' d p
  end.

(** c_linear_cons_bbob_problem_allocate (src/c_linear.c 315-447): gradient_c1,
    linear_combination and two random generators; [first] and [l] say which constraints take
    gradient_c1.  Which and how many is decided by numbers and arbitrary here. *)
Definition linear_constraints (first : bool) (l : list bool) (d : nat) : M addr :=
  around (around (around (around (
    p <-- linear_constraint first d ;;
    stack_constraints l d p)))).

(** f_*_c_linear_cons_bbob_problem_allocate (src/suite_cons_bbob_problems.c), then
    coco_get_cons_bbob_problem (src/suite_cons_bbob.c 48-158) and suite_cons_bbob_get_problem
    (168-196).  The vectors xopt, feasible_direction and all_zeros surround the construction;
    transform_inv_initial_* uses vectors of its own. *)
Definition get_constrained (k : nat) (first : bool) (l : list bool) (d : nat) : M addr :=
  p <-- around (around (
    p' <-- around (
      po <-- construct (cons_constructor k) d ;;
      pc <-- linear_constraints first l d ;;
      qo <-- problem_at po ;;
      ty <-- strdup (type qo) ;;
      qc <-- problem_at pc ;;
      p <-- stacked_allocate po pc (smallest qc) (largest qc) ;;
      p1 <-- transforms null_ok (cons_transformations k) p ;;
      p1 <-- around (around (around (ret p1))) ;;
      p2 <-- transform null_ok VarsShift p1 ;;
      qc <-- problem_at pc ;;
      set_type null_ok p2 [ty; type qc] ;;;
      free_ptr ty ;;;
      ret p2) ;;
    transform null_ok ObjScale p')) ;;
  set_id null_ok p [] ;;; set_name null_ok p [] ;;;
  ret p.

(** suite_biobj_check_inst_consistency (src/suite_biobj_utilities.c 66-112). *)
Definition check_consistency (c : nat * nat * nat) : M unit :=
  let '(d, f1, f2) := c in
  p1 <-- construct (bbob_constructor f1) d ;;
  p2 <-- construct (bbob_constructor f2) d ;;
  s <-- alloc Block ;;
  l <-- alloc Block ;;
  p <-- stacked_allocate p1 p2 (Some s) (Some l) ;;
  free_block s ;;; free_block l ;;;
  coco_problem_free p.

(** The instance part of coco_get_biobj_problem (src/suite_biobj_utilities.c 384-442).  [None]: the
    instance is in suite_biobj_instances.  [Some (n, l)]: it is not; suite->data is NULL, so that
    *new_inst_data is NULL; n is the number of instances of the suite, l lists the consistency
    checks made by suite_biobj_get_new_instance (which and how many is decided by numbers).
    Only the structure is freed at the end. *)
Definition find_instance (i : option (nat * list (nat * nat * nat))) : M unit :=
  match i with
  | None => ret tt
  | Some (n, l) =>
    s <-- alloc (Pointers n []) ;;
    a <-- alloc (Pointers 0 []) ;;
    rows <-- times n (alloc Block) ;;
    write a (Pointers 0 (map Some rows)) ;;;
    write s (Pointers n [Some a]) ;;;
    each check_consistency l ;;;
    free_block s
  end.

(** coco_get_biobj_problem (src/suite_biobj_utilities.c 132-478) for the functions f1 and f2; the
    table of pairs is left out, f1 and f2 are arbitrary. *)
Definition get_biobj (large : bool) (f1 f2 d : nat) (i : option (nat * list (nat * nat * nat))) : M addr :=
  s <-- alloc Block ;;
  l <-- alloc Block ;;
  find_instance i ;;;
  p1 <-- get_continuous large f1 d ;;
  p2 <-- get_continuous large f2 d ;;
  p <-- stacked_allocate p1 p2 (Some s) (Some l) ;;
  q <-- problem_at p ;;
  set_name null_ok p [id q] ;;;
  set_id null_ok p [] ;;;
  q1 <-- problem_at p1 ;;
  q2 <-- problem_at p2 ;;
  set_type null_ok p [type q1; type q2] ;;;
  free_block s ;;; free_block l ;;;
  ret p.

(** A duplicate that takes over the data of the original (src/suite_biobj_mixint.c 95-106). *)
Definition take_over (c : addr) : M addr :=
  p <-- coco_problem_duplicate c ;;
  qc <-- problem_at c ;;
  q <-- problem_at p ;;
  write p (ProblemCell (with_data q (data qc))) ;;;
  write c (ProblemCell (with_free (with_data qc None) NoFree)) ;;;
  ret p.

(** coco_get_biobj_mixint_problem (src/suite_biobj_mixint.c 65-157).  The two duplicates are
    made one after the other together with the transfer of the data. *)
Definition get_biobj_mixint (f1 f2 d : nat) (i : option (nat * list (nat * nat * nat))) : M addr :=
  s <-- alloc Block ;;
  l <-- alloc Block ;;
  pc <-- get_biobj (50 <=? d) f1 f2 d i ;;
  qc <-- problem_at pc ;;
  dc <-- deref (data qc) ;;
  c <-- read dc ;;
  match c with
  | StackedCell (Some c1) (Some c2) =>
    p1 <-- take_over c1 ;;
    p2 <-- take_over c2 ;;
    coco_problem_free pc ;;;
    m1 <-- transform null_ok VarsDiscretize p1 ;;
    m2 <-- transform null_ok VarsDiscretize p2 ;;
    m1 <-- transform null_ok ObjScale m1 ;;
    m2 <-- transform null_ok ObjScale m2 ;;
    p <-- stacked_allocate m1 m2 (Some s) (Some l) ;;
    q <-- problem_at p ;;
    set_name null_ok p [id q] ;;;
    set_id null_ok p [] ;;;
    q1 <-- problem_at p1 ;;
    q2 <-- problem_at p2 ;;
    set_type null_ok p [type q1; type q2] ;;;
    free_block s ;;; free_block l ;;;
    ret p
  | _ => fail
  end.

(** A problem of any suite. *)
Inductive request :=
| Toy (f d : nat)
| Bbob (f d : nat)
| Boxed (f d : nat)
| Largescale (f d : nat)
| Noisy (f d : nat)
| Mixint (f d : nat)
| Constrained (k : nat) (first : bool) (l : list bool) (d : nat)
| Biobj (f1 f2 d : nat) (i : option (nat * list (nat * nat * nat)))
| BiobjMixint (f1 f2 d : nat) (i : option (nat * list (nat * nat * nat))).

(** coco_suite_get_problem of the suite in question. *)
Definition get_problem (r : request) : M addr :=
  match r with
  | Toy f d => construct (toy_constructor f) d
  | Bbob f d => get_continuous false f d
  | Boxed f d => get_boxed f d
  | Largescale f d => get_continuous true f d
  | Noisy f d => get_noisy f d
  | Mixint f d => get_mixint f d
  | Constrained k first l d => get_constrained k first l d
  | Biobj f1 f2 d i => get_biobj false f1 f2 d i
  | BiobjMixint f1 f2 d i => get_biobj_mixint f1 f2 d i
  end.

(** What an experiment does with problems: fetch one, attach a logger (coco_problem_add_observer,
    src/coco_observer.c), take the outermost logger off again (coco_problem_remove_observer), free a
    problem (coco_problem_free).  Problems are known by the order in which they were fetched. *)
Inductive command :=
| Fetch (r : request)
| Observe (i : nat) (k : nat)
| Unobserve (i : nat)
| Free (i : nat).

(** Attaching an observer yields a new outermost problem, removing it yields the inner one. *)
Fixpoint set_problem (l : list (option addr)) (i : nat) (p : option addr) : list (option addr) :=
  match l, i with
  | [], _ => []
  | _ :: l', 0 => p :: l'
  | x :: l', S i' => x :: set_problem l' i' p
  end.

Definition step (c : command) (l : list (option addr)) : M (list (option addr)) :=
  match c with
  | Fetch r => p <-- get_problem r ;; ret (l ++ [Some p])
  | Observe i k =>
    match nth_error l i with
    | Some (Some p) => p' <-- transform null_ok (Observer k) p ;; ret (set_problem l i (Some p'))
    | _ => fail
    end
  | Unobserve i =>
    match nth_error l i with
    | Some (Some p) => p' <-- remove_observer p ;; ret (set_problem l i (Some p'))
    | _ => fail
    end
  | Free i =>
    match nth_error l i with
    | Some (Some p) => coco_problem_free p ;;; ret (set_problem l i None)
    | _ => fail
    end
  end.

Fixpoint session (cs : list command) (l : list (option addr)) : M (list (option addr)) :=
  match cs with
  | [] => ret l
  | c :: cs' => l' <-- step c l ;; session cs' l'
  end.
End Formatting.
