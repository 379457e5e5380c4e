(** Model of the memory owned by problem objects: allocation, duplication, transformation,
    stacking, observation and freeing of problems, and the constructors of all suites, over a
    heap whose blocks are allocated and freed one by one.  The numbers stored in the blocks are
    left out: a block is a vector, a string or a structure without pointers ([Block]), or it
    holds pointers.  Freed addresses are never handed out again, so that a second free or an
    access to a freed block is always noticed ([UB]).  Memory that a function allocates and frees
    again before it returns while evaluating a point (for instance cons_values in
    src/coco_problem.c 908-912, x_local in src/f_gallagher.c 355-378) is not modelled, nor is a
    failing malloc (which calls coco_error and ends the program).
    Properties: MemProps.v. *)
From Coq Require Import List Arith Bool.
From Verif Require Import CBase.
Import ListNotations.
Local Open Scope nat_scope.

Definition addr := nat.
(** A pointer; [None] is NULL. *)
Definition ptr := option addr.

(** Transformations (src/transform_vars_*.c, src/transform_obj_*.c), the linear constraint
    (src/c_linear.c) and observers; [Observer k] stands for a logger (src/logger_*.c) that owns
    k blocks besides its own structure. *)
Inductive transformation :=
| VarsAffine | VarsAsymmetric | VarsBlockrotation | VarsBrs | VarsConditioning | VarsDiscretize
| VarsEnforceBox | VarsOscillate | VarsPermutation | VarsInversePermutation | VarsRoundStep
| VarsScale | VarsShift | VarsXHat | VarsXHatGeneric | VarsZHat
| ObjNormByDim | ObjOscillate | ObjPenalize | ObjPower | ObjScale | ObjShift | ObjNoise
| LinearConstraint
| Observer (k : nat).

(** The values of the field problem_free_function: NULL, coco_problem_transformed_free,
    coco_problem_stacked_free, f_attractive_sector_free, f_gallagher_free,
    f_lunacek_bi_rastrigin_free, f_step_ellipsoid_free; [VersatileFree] is any of the four
    functions f_bent_cigar_generalized_versatile_data_free, f_discus_generalized_...,
    f_sharp_ridge_generalized_... and f_step_ellipsoid_versatile_data_free, which do the same;
    f_gallagher_versatile_data_free and f_lunacek_bi_rastrigin_versatile_data_free. *)
Inductive free_function :=
| NoFree | TransformedFree | StackedFree
| AttractiveSectorFree | GallagherFree | LunacekFree | StepEllipsoidFree
| VersatileFree | GallagherVersatileFree | LunacekVersatileFree.

(** The fields of coco_problem_t (src/coco_internal.h 78-119) that matter here. *)
Record problem := mkProblem {
  variables : nat; objectives : nat; constraints : nat;
  smallest : ptr; largest : ptr; best_parameter : ptr; best_value : ptr; nadir : ptr;
  name : ptr; id : ptr; type : ptr; data : ptr; initial : ptr; noise_free : ptr;
  versatile : ptr; free_fn : free_function }.

(** Content of a block.  [Pointers n l] is an array of pointers (n is not used) or a structure
    with the pointer fields l and one number n (the dimension of a block rotation, the number of
    peaks of Gallagher's function). *)
Inductive cell :=
| Block
| Pointers (n : nat) (l : list ptr)
| ProblemCell (q : problem)
| TransformedCell (inner : ptr) (d : ptr) (t : transformation)
| StackedCell (p1 p2 : ptr).

(** [nth_error h a]: [None] never allocated, [Some None] freed, [Some (Some c)] allocated. *)
Definition heap := list (option cell).
Definition M (A : Type) := heap -> res (A * heap).
Definition ret {A} (a : A) : M A := fun h => Ok (a, h).
Definition mbind {A B} (m : M A) (k : A -> M B) : M B :=
  fun h => bind (m h) (fun r => k (fst r) (snd r)).
Definition fail {A} : M A := fun _ => UB.
Definition error {A} : M A := fun _ => Err.
Notation "x <-- m ;; k" := (mbind m (fun x => k))
  (at level 61, m at next level, right associativity).
Notation "m ;;; k" := (mbind m (fun _ => k)) (at level 61, right associativity).

(** coco_allocate_memory (src/coco_runtime_c.c 70-90) and everything built on it
    (coco_allocate_vector, coco_duplicate_vector, coco_allocate_string, malloc). *)
Definition alloc (c : cell) : M addr := fun h => Ok (length h, h ++ [Some c]).

Definition read (a : addr) : M cell :=
  fun h => match nth_error h a with Some (Some c) => Ok (c, h) | _ => UB end.

Fixpoint update (h : heap) (a : addr) (c : option cell) : heap :=
  match h, a with
  | [], _ => []
  | _ :: h', 0 => c :: h'
  | x :: h', S a' => x :: update h' a' c
  end.

Definition write (a : addr) (c : cell) : M unit :=
  fun h => match nth_error h a with Some (Some _) => Ok (tt, update h a (Some c)) | _ => UB end.

(** coco_free_memory (src/coco_runtime_c.c 92): free; freeing NULL does nothing. *)
Definition free_block (a : addr) : M unit :=
  fun h => match nth_error h a with Some (Some _) => Ok (tt, update h a None) | _ => UB end.
Definition free_ptr (o : ptr) : M unit :=
  match o with None => ret tt | Some a => free_block a end.

Definition problem_at (a : addr) : M problem :=
  c <-- read a ;; match c with ProblemCell q => ret q | _ => fail end.
Definition pointers_at (a : addr) : M (nat * list ptr) :=
  c <-- read a ;; match c with Pointers n l => ret (n, l) | _ => fail end.
(** Dereferencing a pointer: NULL is undefined behaviour. *)
Definition deref (o : ptr) : M addr := match o with Some a => ret a | None => fail end.
(** Reading through a pointer without looking at what is there. *)
Definition touch (o : ptr) : M unit := a <-- deref o ;; read a ;;; ret tt.

Fixpoint each {A} (f : A -> M unit) (l : list A) : M unit :=
  match l with [] => ret tt | x :: l' => f x ;;; each f l' end.
Fixpoint times {A} (n : nat) (m : M A) : M (list A) :=
  match n with 0 => ret [] | S k => a <-- m ;; l <-- times k m ;; ret (a :: l) end.

(** A field of a structure: [None] is a pointer to a vector, [Some rows] a matrix, that is, an
    array of that many pointers to vectors.  bbob2009_allocate_matrix
    (src/suite_bbob_legacy_code.c 29-37), coco_allocate_blockmatrix
    (src/transform_vars_blockrotation_helpers.c 36-63), coco_copy_block_matrix (119-137). *)
Definition alloc_matrix (rows : nat) : M addr :=
  m <-- alloc (Pointers 0 []) ;;
  l <-- times rows (alloc Block) ;;
  write m (Pointers 0 (map Some l)) ;;;
  ret m.
Definition alloc_field (k : option nat) : M addr :=
  match k with None => alloc Block | Some rows => alloc_matrix rows end.
Fixpoint alloc_fields (ks : list (option nat)) : M (list ptr) :=
  match ks with
  | [] => ret []
  | k :: ks' => a <-- alloc_field k ;; l <-- alloc_fields ks' ;; ret (Some a :: l)
  end.

(** bbob2009_free_matrix (src/suite_bbob_legacy_code.c 42-51), coco_free_block_matrix
    (src/transform_vars_blockrotation_helpers.c 69-78): the first n rows, then the array. *)
Definition free_matrix (m : addr) (n : nat) : M unit :=
  r <-- pointers_at m ;;
  each (fun i => match nth_error (snd r) i with Some o => free_ptr o | None => fail end) (seq 0 n) ;;;
  free_block m.
Definition free_field (o : ptr) (k : option nat) : M unit :=
  match k with
  | None => free_ptr o
  | Some n => m <-- deref o ;; free_matrix m n
  end.
(** Free the fields of the structure s at the given positions. *)
Definition free_fields (s : addr) (l : list (nat * option nat)) : M unit :=
  each (fun ik => r <-- pointers_at s ;;
                  match nth_error (snd r) (fst ik) with
                  | Some o => free_field o (snd ik)
                  | None => fail
                  end) l.

(** A structure with number n and freshly allocated fields. *)
Definition alloc_struct (n : nat) (ks : list (option nat)) : M addr :=
  s <-- alloc (Pointers n []) ;;
  l <-- alloc_fields ks ;;
  write s (Pointers n l) ;;;
  ret s.

(** The pointer fields of the data structure of a transformation in a problem of dimension d,
    in the order of their allocation; [None]: the transformation has no data (NULL).
    src/transform_vars_affine.c 171-174 (M, b, x), _asymmetric.c 154-155, _blockrotation.c
    129-136 (B, Bx, block_sizes, block_size_map, first_non_zero_map), _brs.c 70-71,
    _conditioning.c 92-93, _discretize.c 100-101, _enforce_box.c 55, _oscillate.c 158-160,
    _permutation.c 48-50 and 80-82 (x, P), _round_step.c 72-73, _scale.c 60-62, _shift.c 119-121
    (offset, shifted_x), _x_hat.c 67-69, _x_hat_generic.c 67-69 (x, sign_vector), _z_hat.c 60-62
    (xopt, z); src/transform_obj_*.c; src/c_linear.c c_linear_transform (gradient, x). *)
Definition data_layout (t : transformation) (d : nat) : option (list (option nat)) :=
  match t with
  | VarsAffine => Some [None; None; None]
  | VarsAsymmetric => Some [None]
  | VarsBlockrotation => Some [Some d; None; None; None; None]
  | VarsBrs => Some [None]
  | VarsConditioning => Some [None]
  | VarsDiscretize => Some [None]
  | VarsEnforceBox => None
  | VarsOscillate => Some [None]
  | VarsPermutation => Some [None; None]
  | VarsInversePermutation => Some [None; None]
  | VarsRoundStep => Some [None]
  | VarsScale => Some [None]
  | VarsShift => Some [None; None]
  | VarsXHat => Some [None]
  | VarsXHatGeneric => Some [None; None]
  | VarsZHat => Some [None; None]
  | ObjNormByDim => None
  | ObjOscillate => None
  | ObjPenalize => Some []
  | ObjPower => Some []
  | ObjScale => Some []
  | ObjShift => Some []
  | ObjNoise => Some []
  | LinearConstraint => Some [None; None]
  | Observer k => Some (repeat None k)
  end.

(** The data_free_function of a transformation: the fields it frees, in its order, given the
    number n stored in the structure; [None]: the function pointer is NULL.
    src/transform_vars_affine.c 149-151, _asymmetric.c 144, _blockrotation.c 90-94, _brs.c 60,
    _conditioning.c 82, _discretize.c 82, _oscillate.c 149, _permutation.c 37-38,
    _round_step.c 61, _scale.c 50, _shift.c 103-104 (shifted_x, then offset), _x_hat.c 56,
    _x_hat_generic.c 55-56, _z_hat.c 50-51, src/c_linear.c c_linear_gradient_free. *)
Definition data_frees (t : transformation) (n : nat) : option (list (nat * option nat)) :=
  match t with
  | VarsAffine => Some [(0, None); (1, None); (2, None)]
  | VarsAsymmetric => Some [(0, None)]
  | VarsBlockrotation => Some [(0, Some n); (2, None); (1, None); (3, None); (4, None)]
  | VarsBrs => Some [(0, None)]
  | VarsConditioning => Some [(0, None)]
  | VarsDiscretize => Some [(0, None)]
  | VarsEnforceBox => None
  | VarsOscillate => Some [(0, None)]
  | VarsPermutation => Some [(0, None); (1, None)]
  | VarsInversePermutation => Some [(0, None); (1, None)]
  | VarsRoundStep => Some [(0, None)]
  | VarsScale => Some [(0, None)]
  | VarsShift => Some [(1, None); (0, None)]
  | VarsXHat => Some [(0, None)]
  | VarsXHatGeneric => Some [(0, None); (1, None)]
  | VarsZHat => Some [(0, None); (1, None)]
  | ObjNormByDim => None
  | ObjOscillate => None
  | ObjPenalize => None
  | ObjPower => None
  | ObjScale => None
  | ObjShift => None
  | ObjNoise => None
  | LinearConstraint => Some [(0, None); (1, None)]
  | Observer k => Some (map (fun i => (i, None)) (seq 0 k))
  end.

(** The fields of the data structure of a raw problem freed by its problem_free_function, for
    a problem of dimension d whose structure holds the number n:
    src/f_attractive_sector.c 66-72 (xopt), src/f_gallagher.c 142-152 (xopt, peak_values, rotation,
    x_local, arr_scales; positions as in [raw_layout]), src/f_lunacek_bi_rastrigin.c 107-121 and
    src/f_step_ellipsoid.c 114-126 (three vectors, two matrices). *)
Definition raw_frees (f : free_function) (d n : nat) : list (nat * option nat) :=
  match f with
  | AttractiveSectorFree => [(0, None)]
  | GallagherFree => [(0, None); (4, None); (1, Some d); (2, Some d); (3, Some n)]
  | LunacekFree => [(0, None); (1, None); (2, None); (3, Some d); (4, Some d)]
  | StepEllipsoidFree => [(0, None); (1, None); (2, None); (3, Some d); (4, Some d)]
  | _ => []
  end.

Definition with_free (q : problem) (f : free_function) : problem :=
  mkProblem (variables q) (objectives q) (constraints q) (smallest q) (largest q) (best_parameter q)
    (best_value q) (nadir q) (name q) (id q) (type q) (data q) (initial q) (noise_free q)
    (versatile q) f.
Definition with_data (q : problem) (d : ptr) : problem :=
  mkProblem (variables q) (objectives q) (constraints q) (smallest q) (largest q) (best_parameter q)
    (best_value q) (nadir q) (name q) (id q) (type q) d (initial q) (noise_free q)
    (versatile q) (free_fn q).
Definition with_versatile (q : problem) (v : ptr) : problem :=
  mkProblem (variables q) (objectives q) (constraints q) (smallest q) (largest q) (best_parameter q)
    (best_value q) (nadir q) (name q) (id q) (type q) (data q) (initial q) (noise_free q)
    v (free_fn q).
Definition with_initial (q : problem) (i : ptr) : problem :=
  mkProblem (variables q) (objectives q) (constraints q) (smallest q) (largest q) (best_parameter q)
    (best_value q) (nadir q) (name q) (id q) (type q) (data q) i (noise_free q)
    (versatile q) (free_fn q).
Definition with_texts (q : problem) (nm i t : ptr) : problem :=
  mkProblem (variables q) (objectives q) (constraints q) (smallest q) (largest q) (best_parameter q)
    (best_value q) (nadir q) nm i t (data q) (initial q) (noise_free q)
    (versatile q) (free_fn q).

(** The blocks that the generic part of coco_problem_free releases, in its order
    (src/coco_problem.c 311-332). *)
Definition fields (q : problem) : list ptr :=
  [smallest q; largest q; best_parameter q; best_value q; nadir q; name q; id q; type q; data q;
   initial q; noise_free q].

(** coco_problem_transformed_free_data (src/coco_problem.c 806-825) up to the recursive call.
    The assignments of NULL to fields of blocks that are freed afterwards are left out. *)
Definition transformed_data_free (p : addr) : M unit :=
  q <-- problem_at p ;;
  d <-- deref (data q) ;;
  c <-- read d ;;
  match c with
  | TransformedCell _ x t =>
    match x with
    | None => ret tt
    | Some s =>
      r <-- pointers_at s ;;
      match data_frees t (fst r) with Some l => free_fields s l | None => ret tt end ;;;
      free_block s
    end ;;;
    write p (ProblemCell (with_free q NoFree))
  | _ => fail
  end.

(** coco_problem_free (src/coco_problem.c 305-343) and the functions it calls through
    problem_free_function.  The recursion is bounded by a counter; running out of it stands for
    endless recursion. *)
Fixpoint problem_free (fuel : nat) (p : addr) : M unit :=
  match fuel with
  | 0 => fail
  | S n =>
    q <-- problem_at p ;;
    match free_fn q with
    | NoFree => each free_ptr (fields q) ;;; free_block p
    | TransformedFree =>        (* coco_problem.c 830-842 *)
      d <-- deref (data q) ;;
      c <-- read d ;;
      match c with
      | TransformedCell i _ _ =>
        i' <-- deref i ;;
        problem_free n i' ;;;
        transformed_data_free p ;;;
        problem_free n p
      | _ => fail
      end
    | StackedFree =>            (* coco_problem.c 938-957 *)
      d <-- deref (data q) ;;
      c <-- read d ;;
      match c with
      | StackedCell p1 p2 =>
        match p1 with Some a => problem_free n a | None => ret tt end ;;;
        match p2 with Some a => problem_free n a | None => ret tt end ;;;
        write p (ProblemCell (with_free q NoFree)) ;;;
        problem_free n p
      | _ => fail
      end
    | VersatileFree =>
      free_ptr (versatile q) ;;;
      write p (ProblemCell (with_free (with_versatile q None) NoFree)) ;;;
      problem_free n p
    | GallagherVersatileFree =>
      (* transform_vars_gallagher_blockrotation.c 44-73; pointer fields: sub_problems, rotated_x,
         block_sizes, block_size_map, first_non_zero_map, B *)
      v <-- deref (versatile q) ;;
      r <-- pointers_at v ;;
      match snd r with
      | [subs; x; sizes; size_map; zero_map; b] =>
        match subs with
        | None => ret tt
        | Some a =>
          s <-- pointers_at a ;;
          each (fun i => match nth_error (snd s) i with
                         | Some (Some sub) => problem_free n sub
                         | _ => fail
                         end) (seq 0 (fst r)) ;;;
          free_block a
        end ;;;
        free_ptr x ;;; free_ptr sizes ;;; free_ptr size_map ;;; free_ptr zero_map ;;;
        match b with None => ret tt | Some m => free_matrix m (variables q) end ;;;
        free_block v ;;;
        write p (ProblemCell (with_free (with_versatile q None) NoFree)) ;;;
        problem_free n p
      | _ => fail
      end
    | LunacekVersatileFree =>
      (* f_lunacek_bi_rastrigin.c 195-213; pointer fields: sub_problem_mu0, sub_problem_mu1, x_hat *)
      v <-- deref (versatile q) ;;
      r <-- pointers_at v ;;
      match snd r with
      | [s0; s1; x] =>
        match s0 with Some a => problem_free n a | None => ret tt end ;;;
        match s1 with Some a => problem_free n a | None => ret tt end ;;;
        free_ptr x ;;; free_block v ;;;
        write p (ProblemCell (with_free (with_versatile q None) NoFree)) ;;;
        problem_free n p
      | _ => fail
      end
    | f =>
      d <-- deref (data q) ;;
      r <-- pointers_at d ;;
      free_fields d (raw_frees f (variables q) (fst r)) ;;;
      write p (ProblemCell (with_free q NoFree)) ;;;
      problem_free n p
    end
  end.

(** coco_problem_free; every level of nesting takes two calls and owns more than one block. *)
Definition coco_problem_free (p : addr) : M unit :=
  fun h => problem_free (2 * length h + 1) p h.

(** coco_problem_allocate (src/coco_problem.c 153-206). *)
Definition alloc_if (b : bool) : M ptr :=
  if b then a <-- alloc Block ;; ret (Some a) else ret None.
Definition no_problem : problem :=
  mkProblem 0 0 0 None None None None None None None None None None None None NoFree.
Definition coco_problem_allocate (nv no nc : nat) : M addr :=
  p <-- alloc (ProblemCell no_problem) ;;
  s <-- alloc Block ;;
  l <-- alloc Block ;;
  nf <-- alloc_if (0 <? no) ;;
  bp <-- alloc_if (negb (1 <? no)) ;;
  bv <-- alloc Block ;;
  na <-- alloc_if (1 <? no) ;;
  write p (ProblemCell (mkProblem nv no nc (Some s) (Some l) bp (Some bv) na
                          None None None None None nf None NoFree)) ;;;
  ret p.

(** coco_strdup (src/coco_string.c 21-30). *)
Definition strdup (o : ptr) : M ptr :=
  match o with
  | None => ret None
  | Some a => read a ;;; b <-- alloc Block ;; ret (Some b)
  end.

(** coco_problem_duplicate (src/coco_problem.c 211-275).  The vectors of the original are read;
    nadir_value, already allocated for several objectives, is allocated again. *)
Definition coco_problem_duplicate (other : addr) : M addr :=
  o <-- problem_at other ;;
  p <-- coco_problem_allocate (variables o) (objectives o) (constraints o) ;;
  q <-- problem_at p ;;
  touch (smallest o) ;;; touch (largest o) ;;;
  match best_parameter o with None => ret tt | Some _ => touch (best_parameter o) ;;; touch (best_parameter q) end ;;;
  i <-- strdup (initial o) ;;
  match best_value o with None => ret tt | Some _ => touch (best_value o) ;;; touch (best_value q) end ;;;
  na <-- match nadir o with
         | None => ret (nadir q)
         | Some _ => touch (nadir o) ;;; a <-- alloc Block ;; ret (Some a)
         end ;;
  nm <-- strdup (name o) ;;
  pid <-- strdup (id o) ;;
  ty <-- strdup (type o) ;;
  write p (ProblemCell (mkProblem (variables q) (objectives q) (constraints q) (smallest q) (largest q)
             (best_parameter q) (best_value q) na nm pid ty None i (noise_free q)
             (versatile o) (free_fn o))) ;;;
  ret p.

Section Formatting.
(** Whether vsprintf accepts NULL for a %s conversion (undefined in the C standard, printed as
    "(null)" by the usual libraries). *)
Variable null_ok : bool.

(** coco_vstrdupf (src/coco_string.c 42-66) with the given string arguments. *)
Definition format_arg (o : ptr) : M unit :=
  match o with Some a => read a ;;; ret tt | None => if null_ok then ret tt else fail end.
Definition vstrdupf (args : list ptr) : M addr := each format_arg args ;;; alloc Block.

(** coco_problem_set_id, coco_problem_set_name, coco_problem_set_type
    (src/coco_problem.c 383-424); coco_problem_id_is_fine (352-378) makes a copy of the id. *)
Definition set_id (p : addr) (args : list ptr) : M unit :=
  q <-- problem_at p ;;
  free_ptr (id q) ;;;
  s <-- vstrdupf args ;;
  write p (ProblemCell (with_texts q (name q) (Some s) (type q))) ;;;
  c <-- vstrdupf [Some s] ;;
  free_block c.
Definition set_name (p : addr) (args : list ptr) : M unit :=
  q <-- problem_at p ;;
  free_ptr (name q) ;;;
  s <-- vstrdupf args ;;
  write p (ProblemCell (with_texts q (Some s) (id q) (type q))).
Definition set_type (p : addr) (args : list ptr) : M unit :=
  q <-- problem_at p ;;
  free_ptr (type q) ;;;
  s <-- vstrdupf args ;;
  write p (ProblemCell (with_texts q (name q) (id q) (Some s))).

(** coco_problem_allocate_from_scalars (src/coco_problem.c 281-303). *)
Definition allocate_from_scalars (d : nat) (f : free_function) : M addr :=
  p <-- coco_problem_allocate d 1 0 ;;
  nm <-- alloc Block ;;
  q <-- problem_at p ;;
  write p (ProblemCell (with_free (with_texts q (Some nm) (id q) (type q)) f)) ;;;
  ret p.

(** coco_problem_transformed_allocate (src/coco_problem.c 849-874). *)
Definition transformed_allocate (inner : addr) (d : ptr) (t : transformation) : M addr :=
  q <-- problem_at inner ;;
  old <-- strdup (name q) ;;
  w <-- alloc (TransformedCell (Some inner) d t) ;;
  c <-- coco_problem_duplicate inner ;;
  qc <-- problem_at c ;;
  write c (ProblemCell (with_data (with_free qc TransformedFree) (Some w))) ;;;
  set_name c [old] ;;;
  free_ptr old ;;;
  ret c.

(** A transformation: allocate its data, then the transformed problem. *)
Definition transform (t : transformation) (inner : addr) : M addr :=
  q <-- problem_at inner ;;
  d <-- match data_layout t (variables q) with
        | None => ret None
        | Some ks => a <-- alloc_struct (variables q) ks ;; ret (Some a)
        end ;;
  transformed_allocate inner d t.

(** coco_problem_remove_observer (src/coco_observer.c 828-859) after the check of the name: the problem inside, and
    coco_problem_transformed_free_data of the outer one. *)
Definition remove_observer (p : addr) : M addr :=
  q <-- problem_at p ;;
  d <-- deref (data q) ;;
  c <-- read d ;;
  match c with
  | TransformedCell i _ _ =>
    i' <-- deref i ;;
    transformed_data_free p ;;;
    coco_problem_free p ;;;
    ret i'
  | _ => fail
  end.

(** coco_strconcat (src/coco_string.c 88-96) of a problem's string and another: strlen(NULL)
    is undefined. *)
Definition strconcat (o1 o2 : ptr) : M addr := touch o1 ;;; touch o2 ;;; alloc Block.

(** coco_problem_stacked_allocate (src/coco_problem.c 969-1043); roi1 and roi2 are the bounds. *)
Definition stacked_allocate (p1 p2 : addr) (roi1 roi2 : ptr) : M addr :=
  q1 <-- problem_at p1 ;;
  q2 <-- problem_at p2 ;;
  (if variables q1 =? variables q2 then ret tt else fail) ;;;
  p <-- coco_problem_allocate (variables q1) (objectives q1 + objectives q2)
          (constraints q1 + constraints q2) ;;
  sep <-- alloc Block ;;       (* the string literals "__" and " + " *)
  s <-- strconcat (id q1) (Some sep) ;;
  pid <-- strconcat (Some s) (id q2) ;;
  free_block s ;;;
  s <-- strconcat (name q1) (Some sep) ;;
  nm <-- strconcat (Some s) (name q2) ;;
  free_block s ;;;
  free_block sep ;;;
  touch roi1 ;;; touch roi2 ;;;
  q <-- problem_at p ;;
  touch (best_value q) ;;;
  i <-- (if 0 <? constraints q1 + constraints q2
         then if 0 <? constraints q2 then strdup (initial q2) else ret None
         else touch (nadir q) ;;; touch (best_value q1) ;;; touch (best_value q2) ;;;
              touch (best_parameter q1) ;;; touch (best_parameter q2) ;;; ret None) ;;
  d <-- alloc (StackedCell (Some p1) (Some p2)) ;;
  write p (ProblemCell (with_free (with_data (with_initial
             (with_texts q (Some nm) (Some pid) (type q)) i) (Some d)) StackedFree)) ;;;
  ret p.

(** Raw problems: no data of their own (f_sphere_allocate and others), a data structure without
    pointers (f_ellipsoid_allocate, f_griewank_rosenbrock_allocate), the same with a temporary
    vector (f_weierstrass_allocate), ... *)
Inductive raw :=
| RawPlain | RawData | RawWeierstrass
| RawAttractiveSector | RawGallagher (peaks : nat) | RawLunacek | RawStepEllipsoid
| RawVersatile | RawGallagherCore (peaks : nat) | RawLunacekCore.

(** Data fields of the raw problems with pointers, in the order of allocation, and the number
    stored: src/f_attractive_sector.c 88-91 (xopt), src/f_gallagher.c 190-229 (xopt, rotation,
    x_local, arr_scales, peak_values), src/f_lunacek_bi_rastrigin.c 145-150 (x_hat, z, xopt,
    rot1, rot2), src/f_step_ellipsoid.c 150-155 (x, xx, xopt, rot1, rot2). *)
Definition raw_layout (r : raw) (d : nat) : nat * list (option nat) :=
  match r with
  | RawAttractiveSector => (0, [None])
  | RawGallagher peaks => (peaks, [None; Some d; Some d; Some peaks; None])
  | RawLunacek => (0, [None; None; None; Some d; Some d])
  | RawStepEllipsoid => (0, [None; None; None; Some d; Some d])
  | _ => (0, [])
  end.

Definition set_data (p : addr) (d : addr) : M unit :=
  q <-- problem_at p ;; write p (ProblemCell (with_data q (Some d))).
Definition set_versatile (p : addr) (v : addr) : M unit :=
  q <-- problem_at p ;; write p (ProblemCell (with_versatile q (Some v))).

Definition raw_struct (r : raw) (f : free_function) (d : nat) : M addr :=
  p <-- allocate_from_scalars d f ;;
  s <-- alloc_struct (fst (raw_layout r d)) (snd (raw_layout r d)) ;;
  set_data p s ;;;
  ret p.

Fixpoint transforms (ts : list transformation) (p : addr) : M addr :=
  match ts with [] => ret p | t :: ts' => p' <-- transform t p ;; transforms ts' p' end.

(** A vector allocated and freed around [m]. *)
Definition around {A} (m : M A) : M A := v <-- alloc Block ;; r <-- m ;; free_block v ;;; ret r.

(** f_gallagher_sub_problem_allocate (src/f_gallagher.c 316-342) and the transformations applied
    to a sub-problem (566-588, with the temporary vectors y_i and P_Lambda); in the C code all
    sub-problems are allocated first and transformed in a later loop. *)
Definition gallagher_sub (d : nat) : M addr :=
  p <-- allocate_from_scalars d GallagherVersatileFree ;;
  v <-- alloc (Pointers 0 [None; None; None; None; None; None]) ;;
  set_versatile p v ;;;
  set_id p [] ;;;
  around (around (transforms [VarsScale; VarsConditioning; VarsInversePermutation; VarsShift] p)).

(** f_lunacek_bi_rastrigin_sub_problem_allocate (src/f_lunacek_bi_rastrigin.c 229-241) with the
    transformations of the sub-problem (400-406). *)
Definition lunacek_sub (d : nat) (ts : list transformation) : M addr :=
  p <-- allocate_from_scalars d NoFree ;;
  set_id p [] ;;;
  transforms ts p.

Definition raw_allocate (r : raw) (d : nat) : M addr :=
  match r with
  | RawPlain => p <-- allocate_from_scalars d NoFree ;; set_id p [] ;;; ret p
  | RawData =>                    (* f_ellipsoid.c 76-89, f_griewank_rosenbrock.c 68-82 *)
    p <-- allocate_from_scalars d NoFree ;; set_id p [] ;;;
    s <-- alloc Block ;; set_data p s ;;; ret p
  | RawWeierstrass =>             (* f_weierstrass.c 71-97 *)
    p <-- allocate_from_scalars d NoFree ;; set_id p [] ;;;
    s <-- alloc Block ;; set_data p s ;;; around (ret p)
  | RawAttractiveSector =>        (* f_attractive_sector.c 77-96 *)
    p <-- raw_struct r AttractiveSectorFree d ;; set_id p [] ;;; ret p
  | RawGallagher _ =>             (* f_gallagher.c 159-293: random_numbers, rperm, arrCondition, rperm *)
    around (around (p <-- around (raw_struct r GallagherFree d) ;; around (ret p)))
  | RawLunacek =>                 (* f_lunacek_bi_rastrigin.c 128-187: tmpvect *)
    p <-- raw_struct r LunacekFree d ;; around (ret p)
  | RawStepEllipsoid => raw_struct r StepEllipsoidFree d
                                  (* f_step_ellipsoid.c 133-181 *)
  | RawVersatile =>               (* f_bent_cigar_generalized.c 84-100 and three similar functions *)
    p <-- allocate_from_scalars d VersatileFree ;; set_id p [] ;;;
    v <-- alloc Block ;; set_versatile p v ;;; ret p
  | RawGallagherCore peaks =>     (* f_gallagher.c 399-431, 478-493 *)
    p <-- allocate_from_scalars d GallagherVersatileFree ;;
    v <-- alloc (Pointers peaks []) ;;
    set_versatile p v ;;;
    a <-- alloc (Pointers 0 []) ;;
    subs <-- times peaks (gallagher_sub d) ;;
    write a (Pointers 0 (map Some subs)) ;;;
    x <-- alloc Block ;; size_map <-- alloc Block ;; zero_map <-- alloc Block ;;
    sizes <-- alloc Block ;;
    b <-- alloc_matrix d ;;
    write v (Pointers peaks [Some a; Some x; Some sizes; Some size_map; Some zero_map; Some b]) ;;;
    set_id p [] ;;;
    ret p
  | RawLunacekCore =>             (* f_lunacek_bi_rastrigin.c 291-306, 371-374, 396-406 *)
    p <-- allocate_from_scalars d LunacekVersatileFree ;;
    v <-- alloc (Pointers 0 []) ;;
    set_versatile p v ;;;
    x <-- alloc Block ;;
    s0 <-- lunacek_sub d [VarsShift] ;;
    s1 <-- lunacek_sub d [VarsShift; ObjScale; ObjShift] ;;
    write v (Pointers 0 [Some s0; Some s1; Some x]) ;;;
    set_id p [] ;;;
    ret p
  end.

(** The body of a constructor f_*_problem_allocate, statement by statement: temporary vectors
    (coco_allocate_vector, coco_allocate_vector_size_t, coco_get_block_sizes), temporary matrices
    with one row per variable, their release by position in the order of allocation, the raw
    problem, transformations, and [Label]: coco_problem_set_id, set_name and set_type.
    [TempProblem] is the dummy rotation problem of f_gallagher.c 495-497. *)
Inductive instr :=
| TempVector | TempMatrix | TempProblem
| FreeVector (k : nat) | FreeMatrix (k : nat) | FreeProblem (k : nat)
| Raw (r : raw) | Wrap (t : transformation) | Label.

Fixpoint run (l : list instr) (d : nat) (temps : list addr) (p : ptr) : M addr :=
  match l with
  | [] => deref p
  | TempVector :: l' => a <-- alloc Block ;; run l' d (temps ++ [a]) p
  | TempMatrix :: l' => a <-- alloc_matrix d ;; run l' d (temps ++ [a]) p
  | TempProblem :: l' =>
    a <-- allocate_from_scalars d NoFree ;;
    b <-- transform VarsBlockrotation a ;;
    run l' d (temps ++ [b]) p
  | FreeVector k :: l' =>
    match nth_error temps k with Some a => free_block a ;;; run l' d temps p | None => fail end
  | FreeMatrix k :: l' =>
    match nth_error temps k with Some a => free_matrix a d ;;; run l' d temps p | None => fail end
  | FreeProblem k :: l' =>
    match nth_error temps k with
    | Some a => coco_problem_free a ;;; run l' d temps p
    | None => fail
    end
  | Raw r :: l' => a <-- raw_allocate r d ;; run l' d temps (Some a)
  | Wrap t :: l' => a <-- deref p ;; b <-- transform t a ;; run l' d temps (Some b)
  | Label :: l' =>
    a <-- deref p ;;
    set_id a [] ;;; set_name a [] ;;; set_type a [] ;;;
    run l' d temps p
  end.
End Formatting.
