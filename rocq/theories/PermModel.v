(** Model of src/transform_vars_permutation_helpers.c and transform_vars_permutation.c.

    qsort of stdlib.h is a parameter: a function of the comparison function and the array.  The blocks of memory that
    the global pointer perm_random_data refers to are modelled; local vectors are plain lists.  An index of an array is a
    natural number, sums of indices wrap around at 2^64. *)
From Coq Require Import List Arith NArith ZArith Bool String.
From Flocq Require Import BinarySingleNaN.
From Verif Require Import CBase OptModel DblModel PairModel RandModel.
Import ListNotations.
Local Notation length := List.length.
Open Scope nat_scope.

(** Memory: the live blocks with their contents, the next address, and the global variable of line 18. *)
Record memory := { blocks : list (nat * list double); fresh : nat; perm_random_data : nat }.
(** coco_allocate_vector (src/coco_utilities.c: coco_error for size 0, src/coco_runtime_c.c), result stored in the global variable *)
Definition allocate (content : list double) (m : memory) : res memory :=
  match content with
  | [] => Err
  | _ => Ok {| blocks := (fresh m, content) :: blocks m; fresh := S (fresh m); perm_random_data := fresh m |}
  end.
Definition read_block (m : memory) : res (list double) :=
  match find (fun b => fst b =? perm_random_data m) (blocks m) with Some b => Ok (snd b) | None => UB end.
(** coco_free_memory (src/coco_runtime_c.c:92) of the global variable; free of a dead block is undefined *)
Definition free_data (m : memory) : res memory :=
  if existsb (fun b => fst b =? perm_random_data m) (blocks m)
  then Ok {| blocks := filter (fun b => negb (fst b =? perm_random_data m)) (blocks m); fresh := fresh m; perm_random_data := perm_random_data m |}
  else UB.

(** Lines 23-31 *)
Definition compare_data (data : list double) (a b : nat) : Z :=
  let temp := dsub (nth a data dzero) (nth b data dzero) in
  if dlt (dint 0) temp then 1%Z else if dlt temp (dint 0) then (-1)%Z else 0%Z.

(** (long) of a double and (size_t) of a long *)
Definition to_long (x : double) : res Z := if is_finite x then long (Btrunc x) else UB.
Definition as_size_t (z : Z) : nat := N.to_nat (wrap z).
Definition size_sum (a b : nat) : nat := as_size_t (Z.of_nat a + Z.of_nat b).

(** Lines 69-78; the temporary vector of length 1 is allocated and freed inside. *)
Definition coco_random_unif_integer (lower upper seed : Z) : res Z :=
  do us <- bbob2009_unif 1 seed;
  do u <- mget us 0;
  do d <- long (upper - lower);
  do range <- long (d + 1);
  do r <- to_long (dmul u (dint range));
  long (r + lower).

Section Sort.
Variable qsort : (nat -> nat -> Z) -> list nat -> list nat.
Variable log cos : double -> double.

(** qsort(P, ...) with the comparison of the data: the comparison reads the data at members of P *)
Definition sort_by_data (P : list nat) (m : memory) : res (list nat) :=
  do data <- read_block m;
  if forallb (fun i => i <? length data) P then Ok (qsort (compare_data data) P) else UB.

(** Lines 37-47 *)
Definition coco_compute_random_permutation (seed : Z) (n : nat) (m : memory) : res (list nat * memory) :=
  do data <- bbob2009_gauss log cos n seed;
  do m1 <- allocate data m;
  do P <- sort_by_data (seq 0 n) m1;
  do m2 <- free_data m1;
  Ok (P, m2).

(** Lines 52-62; sequence has the given length *)
Definition coco_compute_permutation_from_sequence (sequence : list double) (m : memory) : res (list nat * memory) :=
  do m1 <- allocate sequence m;
  do P <- sort_by_data (seq 0 (length sequence)) m1;
  do m2 <- free_data m1;
  Ok (P, m2).

(** Lines 110-132, one iteration *)
Definition swap_step (seed : Z) (n swap_range : nat) (idx_order : list nat) (idx_swap : nat) (P : list nat) : res (list nat) :=
  do first_swap_var <- mget idx_order idx_swap;
  let lower_bound := if first_swap_var <? swap_range then 0 else first_swap_var - swap_range in
  let upper_bound := if n - 1 <? size_sum first_swap_var swap_range then n - 1 else size_sum first_swap_var swap_range in
  do offset <- long (as_long (N.of_nat (1 + idx_swap)) * 1000);
  do seed1 <- long (seed + offset);
  do upper1 <- long (as_long (N.of_nat upper_bound) - 1);
  do r <- coco_random_unif_integer (as_long (N.of_nat lower_bound)) upper1 seed1;
  let second := as_size_t r in
  let second_swap_var := if first_swap_var <=? second then size_sum second 1 else second in
  do tmp <- mget P first_swap_var;
  do v <- mget P second_swap_var;
  do P1 <- mset P first_swap_var v;
  mset P1 second_swap_var tmp.

Fixpoint swap_loop (count : nat) (seed : Z) (n swap_range : nat) (idx_order : list nat) (idx_swap : nat) (P : list nat) : res (list nat) :=
  match count with
  | O => Ok P
  | S c => do P1 <- swap_step seed n swap_range idx_order idx_swap P; swap_loop c seed n swap_range idx_order (S idx_swap) P1
  end.

(** Lines 86-141 *)
Definition coco_compute_truncated_uniform_swap_permutation (seed : Z) (n nb_swaps swap_range : nat) (m : memory)
  : res (list nat * memory) :=
  if n <=? 40 then Ok (seq 0 n, m)
  else
    do data <- bbob2009_unif n seed;
    do m1 <- allocate data m;
    let P := seq 0 n in
    if 0 <? swap_range then
      do idx_order <- sort_by_data (seq 0 n) m1;
      do P1 <- swap_loop nb_swaps seed n swap_range idx_order 0 P;
      do m2 <- free_data m1;
      Ok (P1, m2)
    else
      do (P1, m2) <- coco_compute_random_permutation seed n m1;
      do m3 <- free_data m2;
      Ok (P1, m3).
End Sort.

(** Lines 163-182 *)
Definition coco_get_swap_range (dimension : nat) (suite_name : cstr) : res nat :=
  if list_eqb Ascii.eqb suite_name (str "bbob-largescale"%string) then Ok (dimension / 3) else Err.
Definition coco_get_nb_swaps (dimension : nat) (suite_name : cstr) : res nat :=
  if list_eqb Ascii.eqb suite_name (str "bbob-largescale"%string) then Ok dimension else Err.

(** transform_vars_permutation.c lines 20-33 and 58-71: the point handed to the inner problem.  data->x is what earlier
    evaluations left in the vector. *)
Fixpoint permute_loop (P : list nat) (i : nat) (x data_x : list double) : res (list double) :=
  match P with
  | [] => Ok data_x
  | p :: P' => do v <- mget x p; do d <- mset data_x i v; permute_loop P' (S i) x d
  end.
Definition permute (P : list nat) (x data_x : list double) : res (list double) := permute_loop P 0 x data_x.
Fixpoint inverse_permute_loop (P : list nat) (i : nat) (x data_x : list double) : res (list double) :=
  match P with
  | [] => Ok data_x
  | p :: P' => do v <- mget x i; do d <- mset data_x p v; inverse_permute_loop P' (S i) x d
  end.
Definition inverse_permute (P : list nat) (x data_x : list double) : res (list double) := inverse_permute_loop P 0 x data_x.
