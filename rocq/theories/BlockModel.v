(** Model of src/transform_vars_blockrotation_helpers.c, transform_vars_blockrotation.c and of the rotation matrices of
    suite_bbob_legacy_code.c (lines 97-153).

    The arithmetic is a parameter: it is instantiated with binary64 (the code) and with the real numbers (what the code
    computes in exact arithmetic).  Memory that is allocated but not yet written is None.  Indices are natural numbers that do
    not wrap around. *)
From Coq Require Import List Arith NArith ZArith Bool String.
From Flocq Require Import BinarySingleNaN.
From Verif Require Import CBase OptModel DblModel PairModel RandModel.
Import ListNotations.
Local Notation length := List.length.
Open Scope nat_scope.

Section Arithmetic.
Variable A : Type.
Variables (zero : A) (add sub mul div : A -> A -> A) (root : A -> A).

(** Sum of the products, from the left, starting from 0: suite_bbob_legacy_code.c lines 142-144 and 148-150, transform_vars_blockrotation.c
    lines 64-68. *)
Definition dot (u v : list A) : A := fold_left (fun s p => add s (mul (fst p) (snd p))) (combine u v) zero.

(** suite_bbob_legacy_code.c lines 140-152.  The matrix is given by its columns.  Columns left of column i have been
    completed; column i is made orthogonal to them one by one and then divided by its norm. *)
Definition subtract_projection (c q : list A) : list A :=
  let prod := dot c q in map (fun p => sub (fst p) (mul prod (snd p))) (combine c q).
Definition finish_column (finished : list (list A)) (c : list A) : list A :=
  let c' := fold_left subtract_projection finished c in
  let prod := dot c' c' in map (fun a => div a (root prod)) c'.
Definition orthonormalise (columns : list (list A)) : list (list A) :=
  fold_left (fun finished c => finished ++ [finish_column finished c]) columns [].

(** suite_bbob_legacy_code.c lines 97-105: column j are the members j * m to j * m + m - 1 of the vector. *)
Fixpoint reshape (m n : nat) (vector : list A) : list (list A) :=
  match n with O => [] | S k => firstn m vector :: reshape m k (skipn m vector) end.
(** rows of a matrix given by columns of length m *)
Definition rows (m : nat) (columns : list (list A)) : list (list A) :=
  map (fun k => map (fun c => nth k c zero) columns) (seq 0 m).

(** helpers lines 50-58 and 126-132, transform_vars_blockrotation.c lines 137-149: for row i and the following ones the size
    of its block and the end of the block *)
Fixpoint block_of_rows (block_sizes : list nat) (count i idx_blocksize next_bs_change : nat) : res (list (nat * nat)) :=
  match count with
  | O => Ok []
  | S c =>
      do (idx, next) <- (if next_bs_change <=? i
                         then do s <- mget block_sizes (idx_blocksize + 1); Ok (idx_blocksize + 1, next_bs_change + s)
                         else Ok (idx_blocksize, next_bs_change));
      do current_blocksize <- mget block_sizes idx;
      do rest <- block_of_rows block_sizes c (S i) idx next;
      Ok ((current_blocksize, next) :: rest)
  end.
Definition row_blocks (block_sizes : list nat) (n : nat) : res (list (nat * nat)) :=
  do s <- mget block_sizes 0; block_of_rows block_sizes n 0 0 s.

(** helpers lines 36-63 *)
Definition sum_sizes (l : list nat) : nat := fold_left Nat.add l 0.
Definition matrix := list (list (option A)).
Definition coco_allocate_blockmatrix (n : nat) (block_sizes : list nat) : res matrix :=
  if sum_sizes block_sizes =? n then
    do l <- row_blocks block_sizes n;
    Ok (map (fun b => repeat None (fst b)) l)
  else UB.

(** helpers lines 84-114; rotation is bbob2009_compute_rotation, the rows of the matrix for a seed and a size *)
Fixpoint fill_row (row : list (option A)) (j : nat) (values : list A) : res (list (option A)) :=
  match values with
  | [] => Ok row
  | v :: t => do r <- mset row j (Some v); fill_row r (S j) t
  end.
Fixpoint fill_rows (B : matrix) (i : nat) (block : list (list A)) : res matrix :=
  match block with
  | [] => Ok B
  | values :: t => do row <- mget B i; do r <- fill_row row 0 values; do B1 <- mset B i r; fill_rows B1 (S i) t
  end.
Variable rotation : Z -> nat -> res (list (list A)).
Fixpoint fill_blocks (B : matrix) (seed : Z) (block_sizes : list nat) (idx_block : nat) (cumsum : nat) : res matrix :=
  match block_sizes with
  | [] => Ok B
  | s :: t =>
      if s <=? 44 then
        do offset <- long (1000000 * as_long (N.of_nat idx_block));
        do seed1 <- long (seed + offset);
        do block <- rotation seed1 s;
        do B1 <- fill_rows B cumsum block;
        fill_blocks B1 seed t (S idx_block) (cumsum + s)
      else UB
  end.
Definition coco_compute_blockrotation (B : matrix) (seed : Z) (n : nat) (block_sizes : list nat) : res matrix :=
  if sum_sizes block_sizes =? n then fill_blocks B seed block_sizes 0 0 else UB.

(** helpers lines 119-139: the first current_blocksize elements of each row; indeterminate elements may not be read *)
Fixpoint copy_row (row : list (option A)) (j count : nat) : res (list A) :=
  match count with
  | O => Ok []
  | S c => do o <- mget row j; do v <- match o with Some v => Ok v | None => UB end; do t <- copy_row row (S j) c; Ok (v :: t)
  end.
Fixpoint copy_rows (B : matrix) (i : nat) (l : list (nat * nat)) : res (list (list A)) :=
  match l with
  | [] => Ok []
  | b :: t => do row <- mget B i; do r <- copy_row row 0 (fst b); do rs <- copy_rows B (S i) t; Ok (r :: rs)
  end.
Definition coco_copy_block_matrix (B : matrix) (n : nat) (block_sizes : list nat) : res (list (list A)) :=
  if sum_sizes block_sizes =? n then do l <- row_blocks block_sizes n; copy_rows B 0 l else UB.

(** transform_vars_blockrotation.c lines 21-31 and 121-149: the data of the transformation *)
Record blockrotation := { rot_B : list (list A); dimension : nat; block_size_map : list nat; first_non_zero_map : list nat }.
Definition transform_vars_blockrotation (B : matrix) (n : nat) (block_sizes : list nat) : res blockrotation :=
  if n =? 0 then UB
  else
    do C <- coco_copy_block_matrix B n block_sizes;
    do l <- row_blocks block_sizes n;
    Ok {| rot_B := C; dimension := n; block_size_map := map fst l; first_non_zero_map := map (fun b => snd b - fst b) l |}.

(** lines 64-68 *)
Fixpoint row_sum (row x : list A) (j first count : nat) (s : A) : res A :=
  match count with
  | O => Ok s
  | S c => do b <- mget row (j - first); do v <- mget x j; row_sum row x (S j) first c (add s (mul b v))
  end.
(** lines 55-75 *)
Fixpoint apply_rows (d : blockrotation) (x : list A) (count i : nat) : res (list A) :=
  match count with
  | O => Ok []
  | S c =>
      do size <- mget (block_size_map d) i;
      do first <- mget (first_non_zero_map d) i;
      do row <- mget (rot_B d) i;
      do y <- row_sum row x first first size zero;
      do t <- apply_rows d x c (S i);
      Ok (y :: t)
  end.
Definition transform_vars_blockrotation_apply (d : blockrotation) (x : list A) : res (list A) := apply_rows d x (dimension d) 0.

(** lines 36-49 *)
Fixpoint row_elements (row : list A) (first size j count : nat) : res (list A) :=
  match count with
  | O => Ok []
  | S c =>
      do v <- (if (j <? first) || (first + size <=? j) then Ok zero else mget row (j - first));
      do t <- row_elements row first size (S j) c;
      Ok (v :: t)
  end.
Definition transform_vars_blockrotation_get_row (d : blockrotation) (i : nat) : res (list A) :=
  do size <- mget (block_size_map d) i;
  do first <- mget (first_non_zero_map d) i;
  do row <- mget (rot_B d) i;
  row_elements row first size 0 (dimension d).
End Arithmetic.

(** ** In binary64 *)
(** suite_bbob_legacy_code.c lines 127-153 (the matrix by rows); gvect has 2000 elements *)
Definition bbob2009_compute_rotation (log cos : double -> double) (seed : Z) (dim : nat) : res (list (list double)) :=
  if (Z.of_nat (dim * dim) <? 2000)%Z then
    do gvect <- bbob2009_gauss log cos (dim * dim) seed;
    Ok (rows double dzero dim (orthonormalise double dzero dadd dsub dmul ddiv dsqrt (reshape double dim dim gvect)))
  else UB.

(** helpers lines 22-28 *)
Definition coco_rotation_matrix_block_size (dim : N) : res N :=
  coco_double_to_size_t (coco_double_min (dmul (dint 1) (dint (Z.of_N dim))) (dint 40)).

(** helpers lines 144-163; NULL (nothing assigned to nb_blocks) is None; division by zero is undefined; the array has
    nb_blocks elements; nb_blocks is not 0 unless the dimension is. *)
Definition coco_get_block_sizes (dim : N) (suite_name : cstr) : res (option (list N)) :=
  if list_eqb Ascii.eqb suite_name (str "bbob-largescale"%string) then
    do block_size <- coco_rotation_matrix_block_size dim;
    if (block_size =? 0)%N then UB
    else
      let nb_blocks := (dim / block_size + (if 0 <? dim mod block_size then 1 else 0))%N in
      Ok (Some (repeat block_size (N.to_nat (nb_blocks - 1)) ++ [dim - (nb_blocks - 1) * block_size]%N))
  else Ok None.
