(** Model of the numbering of bi-objective problems and of the reference hypervolumes
    (src/suite_biobj_utilities.c). *)
From Coq Require Import List Arith NArith ZArith Bool Ascii String.
From Flocq Require Import BinarySingleNaN.
From Verif Require Import CBase DblModel IdModel.
Import ListNotations.
Open Scope N_scope.

(** sqrt of math.h (correctly rounded as required by IEEE 754) *)
Definition dsqrt (x : double) : double := Bsqrt mode_NE x.

(** size_t arithmetic *)
Definition size_max : N := 2 ^ 64.
Definition wrap (z : Z) : N := Z.to_N (z mod Z.of_N size_max)%Z.

(** Lines 247-251 *)
Definition sel_bbob_functions : list N := [1; 2; 6; 8; 13; 14; 15; 17; 20; 21].
Definition all_bbob_functions : list N :=
  [1; 2; 3; 4; 5; 6; 7; 8; 9; 10; 11; 12; 13; 14; 15; 16; 17; 18; 19; 20; 21; 22; 23; 24].

(** Lines 265-384: the indices of the two functions.  The indices for 55 to 91 as a table of the branches
    in lines 272-380 (function_idx - 55 is the position). *)
Definition more_pairs : list (N * N) :=
  [(0,2); (0,3); (0,4); (1,2); (1,3); (1,4); (2,3); (2,4); (3,4); (5,6); (5,8); (6,7); (6,8); (7,8);
   (9,10); (9,11); (9,12); (9,13); (10,11); (10,12); (10,13); (11,12); (11,13); (14,17); (14,18); (16,17); (16,18);
   (17,18); (19,21); (19,22); (19,23); (20,21); (20,22); (20,23); (21,22); (21,23); (22,23)].

Definition function_indices (function_idx : N) : res (N * N) :=
  if function_idx <? 55 then
    let d := dint (Z.of_N (wrap (55 - Z.of_N function_idx - 1))) in
    do t <- coco_double_to_size_t (dfloor (dadd (dopp (ddec 5 1)) (dsqrt (dadd (ddec 25 2) (dmul (dint 2) d)))));
    let f1 := wrap (10 - Z.of_N t - 1) in
    let f2 := wrap (Z.of_N function_idx - Z.of_N f1 * 10 + Z.of_N (wrap (Z.of_N f1 * (Z.of_N f1 + 1)) / 2)) in
    Ok (f1, f2)
  else match nth_error more_pairs (N.to_nat (function_idx - 55)) with
       | Some p => Ok p
       | None => Err
       end.

(** Lines 444-458: the numbers of the two functions. *)
Definition base_functions (function : N) : res (N * N) :=
  let function_idx := wrap (Z.of_N function - 1) in
  do (f1, f2) <- function_indices function_idx;
  let table := if function_idx <? 55 then sel_bbob_functions else all_bbob_functions in
  do a <- mget table (N.to_nat f1);
  do b <- mget table (N.to_nat f2);
  Ok (a, b).

(** ** Instances: lines 22-24 and 386-441 *)
Definition suite_biobj_instances : list (N * (N * N)) :=
  [(1,(2,4)); (2,(3,5)); (3,(7,8)); (4,(9,10)); (5,(11,12)); (6,(13,14)); (7,(15,16)); (8,(17,18)); (9,(19,21));
   (10,(21,22)); (11,(23,24)); (12,(25,26)); (13,(27,28)); (14,(29,30)); (15,(31,34))].

Section Instances.
(** suite_biobj_check_inst_consistency (lines 66-113) for dimension, function1, instance1, function2, instance2: true if
    the two problems are too close to each other.  A deterministic function of these numbers. *)
Variable too_close : N -> N -> N -> N -> N -> bool.

(** The loop over the dimensions (lines 157-169, 176-188); a filtered dimension is 0 and is skipped. *)
Fixpoint check_dimensions (dimensions : list N) (f1 i1 f2 i2 : N) (break_search : bool) : bool :=
  match dimensions with
  | [] => break_search
  | d :: ds =>
    if break_search then break_search
    else if d =? 0 then check_dimensions ds f1 i1 f2 i2 break_search
    else check_dimensions ds f1 i1 f2 i2 (too_close d f1 i1 f2 i2)
  end.

(** The loop over f2 (line 155) *)
Fixpoint check_second (f1 : N) (fs dimensions : list N) (i1 i2 : N) (break_search : bool) : bool :=
  match fs with
  | [] => break_search
  | f2 :: fs' =>
    if break_search then break_search
    else check_second f1 fs' dimensions i1 i2 (check_dimensions dimensions f1 i1 f2 i2 break_search)
  end.

(** The loop over f1 (line 153): all positions but the last. *)
Fixpoint check_pairs (fs dimensions : list N) (i1 i2 : N) (break_search : bool) : bool :=
  match fs with
  | [] => break_search
  | f1 :: rest =>
    match rest with
    | [] => break_search
    | _ :: _ =>
      if break_search then break_search
      else check_pairs rest dimensions i1 i2 (check_second f1 rest dimensions i1 i2 break_search)
    end
  end.

(** The loop over (f, f) (lines 172-189) *)
Fixpoint check_same (fs dimensions : list N) (i1 i2 : N) (break_search : bool) : bool :=
  match fs with
  | [] => break_search
  | f :: fs' =>
    if break_search then break_search
    else check_same fs' dimensions i1 i2 (check_dimensions dimensions f i1 f i2 break_search)
  end.

(** suite_biobj_get_new_instance, lines 141-219; [left] is max_tries - num_tries.  The array of new instances is not
    modelled: it belongs to a local variable of the caller and is never read again (see below). *)
Fixpoint new_instance (left : nat) (num_tries instance1 : N) (dimensions : list N) : res N :=
  match left with
  | O => Err
  | S left' =>
    let t := num_tries + 1 in
    let instance2 := wrap (Z.of_N instance1 + Z.of_N t) in
    let b := check_pairs all_bbob_functions dimensions instance1 instance2 false in
    let b := check_same sel_bbob_functions dimensions instance1 instance2 b in
    if b : bool then new_instance left' t instance1 dimensions else Ok instance2
  end.

(** Lines 386-441.  The second search (in new_instances) is never reached with data: suite_biobj.c 80-87 passes the
    address of a local copy of suite->data, which is NULL and stays NULL. *)
Definition base_instances (instance : N) (dimensions : list N) : res (N * N) :=
  match find (fun e => fst e =? instance) suite_biobj_instances with
  | Some (_, p) => Ok p
  | None =>
    let instance1 := wrap (2 * Z.of_N instance + 1) in
    do instance2 <- new_instance 1000 0 instance1 dimensions;
    Ok (instance1, instance2)
  end.
End Instances.

(** ** Reference hypervolumes: lines 486-510.  A line of the table is "key value"; sscanf is modelled by the
    two parts of the line.  The value is the one written to *value. *)
Section Best.
Variable V : Type.
Variable default_value : V.

Fixpoint hyp_loop (table : list (cstr * V)) (key : cstr) (value : V) : V :=
  match table with
  | [] => value
  | (k, v) :: t => if streq k key then v else hyp_loop t key v
  end.

Definition suite_biobj_get_best_hyp_value (known_optima : bool) (table : list (cstr * V)) (key : cstr) : V :=
  if known_optima then hyp_loop table key default_value else default_value.
End Best.
Arguments hyp_loop {V} _ _ _.
Arguments suite_biobj_get_best_hyp_value {V} _ _ _ _.

(** The keys of suite_biobj_best_values_hyp.c 16-8295, in the order of the file. *)
Definition shipped_problems : list (N * N * N) :=
  flat_map (fun f => flat_map (fun i => map (fun d => (f, i, d)) [2; 3; 5; 10; 20; 40]) (map N.of_nat (seq 1 15)))
    (map N.of_nat (seq 1 92)).
