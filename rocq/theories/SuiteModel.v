(** Model of src/coco_suite.c. *)
From Coq Require Import List Arith NArith ZArith Ascii String Bool.
From Verif Require Import CBase StrModel OptModel.
Import ListNotations.

(** ** The suite object: src/coco_internal.h (coco_suite_s), allocation coco_suite.c 221-271.
    Lists stand for the arrays with their lengths; an item 0 has been filtered out.  The indices
    are of type long, -1 before the first item. *)
Record suite := mk_suite {
  functions : list N;
  dimensions : list N;
  instances : list N;
  cur_function : Z;
  cur_dimension : Z;
  cur_instance : Z
}.

(** What distinguishes the suites (arguments of coco_suite_allocate and the year table). *)
Record suite_desc := mk_desc {
  sd_functions : nat;              (* number of functions *)
  sd_offset : N;                   (* 100 for bbob-noisy, lines 244-245 *)
  sd_dimensions : list N;
  sd_default : cstr;
  sd_year : Z -> res cstr          (* lines 73-100 and the suites' functions *)
}.

(** Lines 221-271. *)
Definition coco_suite_allocate (d : suite_desc) : suite :=
  mk_suite (map (fun i => (N.of_nat i + 1 + sd_offset d)%N) (seq 0 (sd_functions d)))
           (sd_dimensions d) [] (-1) (-1) (-1).

(** Array access with a size_t index. *)
Definition item (l : list N) (i : nat) : res N := mget l i.

(** ** Problem indices, lines 961-994; size_t arithmetic is modulo 2^64. *)
Definition W : N := 18446744073709551616%N.
Definition wmul (a b : N) : N := ((a * b) mod W)%N.
Definition wadd (a b : N) : N := ((a + b) mod W)%N.
Definition wsub1 (a : N) : N := ((a + (W - 1)) mod W)%N.

Definition nF (s : suite) : N := N.of_nat (List.length (functions s)).
Definition nD (s : suite) : N := N.of_nat (List.length (dimensions s)).
Definition nI (s : suite) : N := N.of_nat (List.length (instances s)).

(** Lines 481-484. *)
Definition coco_suite_get_number_of_problems (s : suite) : N := wmul (wmul (nI s) (nF s)) (nD s).

(** Lines 961-966. *)
Definition coco_suite_encode_problem_index (s : suite) (f d i : N) : N :=
  wadd (wadd i (wmul f (nI s))) (wmul (wmul d (nI s)) (nF s)).

(** Lines 978-994.  The assignments of lines 985-987 only change the local pointers, so the
    caller's variables keep the values they had ([f0], [d0], [i0]).  Division by zero is [UB]. *)
Definition coco_suite_decode_problem_index (s : suite) (idx f0 d0 i0 : N) : res (N * N * N) :=
  if (wsub1 (coco_suite_get_number_of_problems s) <? idx)%N then Ok (f0, d0, i0)
  else if (nI s =? 0)%N || (nF s =? 0)%N || (wmul (nI s) (nF s) =? 0)%N then UB
  else Ok ((idx / nI s) mod nF s, idx / wmul (nI s) (nF s), idx mod nI s)%N.

(** ** Problems.  The constructors of the single suites are not modelled here: a problem is
    represented by the numbers they store in it (e.g. suite_bbob.c 214-216: suite_dep_function,
    suite_dep_instance, suite_dep_index) and its dimension. *)
Record problem := mk_problem {
  dep_function : N;
  dep_dimension : N;
  dep_instance : N;
  dep_index : N
}.

(** Lines 109-151; [None] is NULL. The three array reads are not short-circuited differently from
    C: || stops at the first true operand. *)
Definition get_problem_from_indices (s : suite) (f d i : nat) : res (option problem) :=
  do fv <- item (functions s) f;
  if (fv =? 0)%N then Ok None else
  do dv <- item (dimensions s) d;
  if (dv =? 0)%N then Ok None else
  do iv <- item (instances s) i;
  if (iv =? 0)%N then Ok None else
  Ok (Some (mk_problem fv dv iv
        (coco_suite_encode_problem_index s (N.of_nat f) (N.of_nat d) (N.of_nat i)))).

(** Lines 460-469. *)
Definition coco_suite_get_problem (s : suite) (idx : N) : res (option problem) :=
  do (f, d, i) <- coco_suite_decode_problem_index s idx 0 0 0;
  get_problem_from_indices s (N.to_nat f) (N.to_nat d) (N.to_nat i).

(** Lines 179-188 (and 190-199, 201-210): position of the first item with the given value.  The
    conversion of the index to int is not modelled (arrays of more than 2^31 items). *)
Fixpoint find_item (l : list N) (v : N) (i : nat) : option nat :=
  match l with
  | [] => None
  | x :: l' => if (x =? v)%N then Some i else find_item l' v (S i)
  end.

(** Lines 172-213. *)
Definition get_problem_by_numbers (s : suite) (f d i : N) : res (option problem) :=
  match find_item (functions s) f 0 with
  | None => Ok None
  | Some fi =>
      match find_item (dimensions s) d 0 with
      | None => Ok None
      | Some di =>
          match find_item (instances s) i 0 with
          | None => Ok None
          | Some ii => get_problem_from_indices s fi di ii
          end
      end
  end.

(** Lines 353-405. *)
Definition get_function_from_index (s : suite) (k : nat) : res N :=
  if List.length (functions s) <=? k then Err else item (functions s) k.
Definition get_dimension_from_index (s : suite) (k : nat) : res N :=
  if List.length (dimensions s) <=? k then Err else item (dimensions s) k.
(** Line 404 reads the array of functions. *)
Definition get_instance_from_index (s : suite) (k : nat) : res N :=
  if List.length (instances s) <=? k then Err else item (functions s) k.

(** ** Iteration, lines 558-634 *)

(** items[*current_item_id] with an index of type long. *)
Definition zitem (l : list N) (i : Z) : res N := if (i <? 0)%Z then UB else mget l (Z.to_nat i).

(** The do-while loops of lines 564-566 and 577-579; [fuel] bounds the number of rounds and is
    never exhausted when it is at least the length plus one. *)
Fixpoint advance (l : list N) (cur : Z) (fuel : nat) : res Z :=
  match fuel with
  | O => UB
  | S fuel' =>
      let cur' := (cur + 1)%Z in
      if (cur' <? Z.of_nat (List.length l) - 1)%Z then
        do v <- zitem l cur';
        if (v =? 0)%N then advance l cur' fuel' else Ok cur'
      else Ok cur'
  end.

(** Lines 575-583. *)
Definition restart_items (l : list N) : res (bool * Z) :=
  do c <- advance l (-1) (List.length l + 1);
  do v <- zitem l c;
  if (v =? 0)%N then Err else Ok (false, c).

(** Lines 558-584: found, new position. *)
Definition is_next_item_found (l : list N) (cur : Z) : res (bool * Z) :=
  if negb (cur =? Z.of_nat (List.length l) - 1)%Z then
    do c <- advance l cur (List.length l + 1);
    if negb (c <? Z.of_nat (List.length l))%Z then UB                      (* assert, line 568 *)
    else
      do v <- zitem l c;
      if negb (v =? 0)%N then Ok (true, c) else restart_items l
  else restart_items l.

Definition set_cur (s : suite) (f d i : Z) : suite :=
  mk_suite (functions s) (dimensions s) (instances s) f d i.

(** Lines 595-598. *)
Definition is_next_instance_found (s : suite) : res (bool * suite) :=
  do (b, c) <- is_next_item_found (instances s) (cur_instance s);
  Ok (b, set_cur s (cur_function s) (cur_dimension s) c).

(** Lines 610-620. *)
Definition is_next_function_found (s : suite) : res (bool * suite) :=
  do (b, c) <- is_next_item_found (functions s) (cur_function s);
  let s1 := set_cur s c (cur_dimension s) (cur_instance s) in
  if b then Ok (true, s1)
  else
    do (_, s2) <- is_next_instance_found (set_cur s1 c (cur_dimension s) (-1));
    Ok (false, s2).

(** Lines 631-634. *)
Definition is_next_dimension_found (s : suite) : res (bool * suite) :=
  do (b, c) <- is_next_item_found (dimensions s) (cur_dimension s);
  Ok (b, set_cur s (cur_function s) c (cur_instance s)).

(** Lines 883-948.  Freeing the previous problem, the observer and the progress output are not
    modelled. *)
Definition coco_suite_get_next_problem (s : suite) : res (option problem * suite) :=
  do (bi, s1) <- is_next_instance_found s;
  do (b, s2) <- (if bi then Ok (true, s1)
                 else
                   do (bf, s2) <- is_next_function_found s1;
                   if bf then Ok (true, s2) else is_next_dimension_found s2);
  if negb b then Ok (None, s2)
  else if (cur_function s2 <? 0)%Z || (cur_dimension s2 <? 0)%Z || (cur_instance s2 <? 0)%Z then UB
  else
    do p <- get_problem_from_indices s2 (Z.to_nat (cur_function s2)) (Z.to_nat (cur_dimension s2))
                                     (Z.to_nat (cur_instance s2));
    Ok (p, s2).

(** ** Filters *)

(** A number array as returned by coco_string_parse_ranges. *)
Definition numbers := list (option N).
Definition MAX_INSTANCES : nat := 1000.

(** Reading element j of the indices/dimension numbers, lines 310, 337. *)
Definition number_at (l : numbers) (j : nat) : res N :=
  do v <- mget l j; match v with Some n => Ok n | None => UB end.

(** Lines 308-314 / 335-339: is the value among the first [count] numbers (from position j on). *)
Fixpoint found_in (l : numbers) (v : N) (j count : nat) : res bool :=
  match count with
  | O => Ok false
  | S count' =>
      do n <- number_at l j;
      if (n =? v)%N then Ok true else found_in l v (S j) count'
  end.

(** Lines 307-317: i counts from 1. *)
Fixpoint filter_loop (items : list N) (i : N) (idx : numbers) (count : nat) : res (list N) :=
  match items with
  | [] => Ok []
  | x :: items' =>
      do b <- found_in idx i 0 count;
      do r <- filter_loop items' (i + 1) idx count;
      Ok ((if b then x else 0%N) :: r)
  end.

(** Lines 300-318. *)
Definition coco_suite_filter_indices (items : list N) (idx : numbers) : res (list N) :=
  do count <- coco_count_numbers idx MAX_INSTANCES;
  filter_loop items 1 idx count.

(** Lines 334-342 (the inner loop has no break, which does not change the result). *)
Fixpoint filter_dim_loop (dims : list N) (nums : numbers) (count : nat) : res (list N) :=
  match dims with
  | [] => Ok []
  | x :: dims' =>
      do b <- found_in nums x 0 count;
      do r <- filter_dim_loop dims' nums count;
      Ok ((if b then x else 0%N) :: r)
  end.

(** Lines 326-343. *)
Definition coco_suite_filter_dimensions (dims : list N) (nums : numbers) : res (list N) :=
  do count <- coco_count_numbers nums MAX_INSTANCES;
  filter_dim_loop dims nums count.

(** ** Instances, lines 494-548 *)
Definition k_year : cstr := str "year".
Definition k_instances : cstr := str "instances".
Definition k_dimensions : cstr := str "dimensions".
Definition k_dimension_indices : cstr := str "dimension_indices".
Definition k_function_indices : cstr := str "function_indices".
Definition k_instance_indices : cstr := str "instance_indices".
Definition INSTANCES_CAP : N := 1000.      (* line 535: coco_allocate_string(COCO_MAX_INSTANCES) *)

(** Lines 513-522 (and 776-785): which of two options are processed, given the positions at which
    their names were found. *)
Definition precedence (p1 p2 : Z) : bool * bool :=
  if (0 <? p1)%Z && (0 <? p2)%Z then
    if (p1 <? p2)%Z then (true, false) else (false, true)
  else (true, true).

Definition get_instance_indices (d : suite_desc) (s : cstr) : res (option numbers) :=
  do year_found <- coco_strfind s k_year;
  do instances_found <- coco_strfind s k_instances;
  if (year_found <? 0)%Z && (instances_found <? 0)%Z then Ok None
  else
    let '(parse_year, parse_instances) := precedence year_found instances_found in
    do r1 <- (if (0 <=? year_found)%Z && parse_year then
                do (n, v) <- coco_options_read_int s k_year;
                if negb (n =? 0)%Z then
                  do ys <- sd_year d (match v with Some y => y | None => (-1)%Z end);
                  coco_string_parse_ranges ys 1 0 MAX_INSTANCES
                else Ok None
              else Ok None);
    if (0 <=? instances_found)%Z && parse_instances then
      do (n, v) <- coco_options_read_values s k_instances INSTANCES_CAP;
      match n, v with
      | S _, Some t => coco_string_parse_ranges t 1 0 MAX_INSTANCES
      | _, _ => Ok r1
      end
    else Ok r1.

(** Lines 276-291. *)
Definition coco_suite_set_instance (nums : option numbers) : res (list N) :=
  match nums with
  | None => Err
  | Some l =>
      do n <- coco_count_numbers l MAX_INSTANCES;
      if n =? 0 then Err                      (* allocation of 0 bytes, coco_runtime_c.c *)
      else read_numbers l n
  end.

(** ** The constructor, lines 684-866 *)
Definition known_keys_o : list cstr :=
  [k_dimensions; k_dimension_indices; k_function_indices; k_instance_indices].
Definition known_keys_i : list cstr := [k_year; k_instances].
Definition LF : cstr := ["010"%char].
Definition info_i : cstr := str "coco_suite(): Some keys in suite instance were ignored:" ++ LF.
Definition valid_i : cstr := str "Valid keys for suite instance are:" ++ LF.
Definition info_o : cstr := str "coco_suite(): Some keys in suite options were ignored:" ++ LF.
Definition valid_o : cstr := str "Valid keys for suite options are:" ++ LF.
Definition PATH_CAP : N := 4097.           (* COCO_PATH_MAX + 1, PATH_MAX = 4096 on Linux *)

(** Lines 750-758, 762-770, 788-798: one filter by position. *)
Definition apply_index_option (options key : cstr) (items : list N) : res (list N) :=
  do (n, v) <- coco_options_read_values options key PATH_CAP;
  match n, v with
  | S _, Some t =>
      do idx <- coco_string_parse_ranges t 1 (N.of_nat (List.length items)) MAX_INSTANCES;
      match idx with
      | None => Ok items
      | Some l => coco_suite_filter_indices items l
      end
  | _, _ => Ok items
  end.

(** Lines 802-820; [None]: coco_suite returns NULL because of disallowed characters. *)
Definition apply_dimensions_option (options : cstr) (dims : list N) : res (option (list N)) :=
  do (n, v) <- coco_options_read_values options k_dimensions PATH_CAP;
  match n, v with
  | S _, Some t =>
      if negb (forallb (fun c => Ascii.eqb c COMMA || isdigit c) t) then Ok None
      else
        do lo <- item dims 0;
        do hi <- item dims (List.length dims - 1);
        do nums <- coco_string_parse_ranges t lo hi MAX_INSTANCES;
        match nums with
        | None => Ok (Some dims)
        | Some l => do r <- coco_suite_filter_dimensions dims l; Ok (Some r)
        end
  | _, _ => Ok (Some dims)
  end.

(** Lines 748-847.  [None]: return NULL. *)
Definition apply_options (s : suite) (options : cstr) : res (option suite) :=
  match options with
  | [] => Ok (Some s)
  | _ =>
      do fs <- apply_index_option options k_function_indices (functions s);
      do ins <- apply_index_option options k_instance_indices (instances s);
      do dim_found <- coco_strfind options k_dimensions;
      do dim_idx_found <- coco_strfind options k_dimension_indices;
      let '(parce_dim, parce_dim_idx) := precedence dim_found dim_idx_found in
      do ds1 <- (if (0 <=? dim_idx_found)%Z && parce_dim_idx
                 then apply_index_option options k_dimension_indices (dimensions s)
                 else Ok (dimensions s));
      do ds2 <- (if (0 <=? dim_found)%Z && parce_dim
                 then apply_dimensions_option options ds1
                 else Ok (Some ds1));
      match ds2 with
      | None => Ok None
      | Some ds =>
          do _ <- check_keys known_keys_o options info_o valid_o;   (* 823-846, a warning *)
          Ok (Some (mk_suite fs ds ins (cur_function s) (cur_dimension s) (cur_instance s)))
      end
  end.

(** Lines 850-858. *)
Definition enough_left (s : suite) : bool :=
  existsb (fun d => negb (d =? 0)%N) (dimensions s) &&
  (1 <=? List.length (functions s)) && (1 <=? List.length (instances s)).

(** Lines 684-866, for a known suite.  NULL and "" are treated alike for the instance and option
    strings (lines 707, 748). *)
Definition coco_suite (d : suite_desc) (inst options : cstr) : res (option suite) :=
  let s0 := coco_suite_allocate d in
  do nums <- (match inst with
              | [] => get_instance_indices d (sd_default d)
              | _ =>
                  do r <- get_instance_indices d inst;
                  do r' <- (match r with
                            | Some _ => Ok r
                            | None => get_instance_indices d (sd_default d)
                            end);
                  do _ <- check_keys known_keys_i inst info_i valid_i;  (* 719-742, a warning *)
                  Ok r'
              end);
  do ins <- coco_suite_set_instance nums;
  do o <- apply_options (mk_suite (functions s0) (dimensions s0) ins (-1) (-1) (-1)) options;
  match o with
  | None => Ok None
  | Some s1 =>
      if negb (enough_left s1) then Ok None
      else
        do (_, s2) <- is_next_function_found s1;
        do (_, s3) <- is_next_dimension_found s2;
        Ok (Some s3)
  end.

(** ** The suites: suite_bbob.c 37-78, suite_biobj.c 33-70, suite_cons_bbob.c, suite_largescale.c,
    suite_bbob_mixint.c, suite_biobj_mixint.c, suite_bbob_noisy.c, suite_sbox_cost.c, suite_toy.c. *)
Definition dims_standard : list N := [2; 3; 5; 10; 20; 40]%N.
Definition dims_large : list N := [20; 40; 80; 160; 320; 640]%N.
Definition dims_mixint : list N := [5; 10; 20; 40; 80; 160]%N.

(** suite_bbob.c 52-78 *)
Definition year_bbob (y : Z) : res cstr :=
  if (2023 <=? y)%Z then Ok (str "1-5,101-110")
  else if (2021 <=? y)%Z then Ok (str "1-5,91-100")
  else if (2018 <=? y)%Z then Ok (str "1-5,71-80")
  else if (y =? 2017)%Z then Ok (str "1-5,61-70")
  else if (y =? 2016)%Z || (y =? 0)%Z then Ok (str "1-5,51-60")
  else if (y =? 2015)%Z then Ok (str "1-5,41-50")
  else if (2013 <=? y)%Z then Ok (str "1-5,31-40")
  else if (y =? 2012)%Z then Ok (str "1-5,21-30")
  else if (2010 <=? y)%Z then Ok (str "1-15")
  else if (y =? 2009)%Z then Ok (str "1-5,1-5,1-5")
  else Err.

Definition desc_toy : suite_desc :=
  mk_desc 6 0 [2; 3; 5; 10; 20]%N (str "instances: 1") (fun _ => Err).
Definition desc_bbob : suite_desc :=
  mk_desc 24 0 dims_standard (str "year: 2018") year_bbob.
(** suite_sbox_cost.c 42-70 *)
Definition desc_boxed : suite_desc :=
  mk_desc 24 0 dims_standard (str "year: 2023")
    (fun y => if (y =? 2023)%Z then Ok (str "1-5,101-110")
              else if (y =? 0)%Z then Ok (str "1-15") else Err).
(** suite_biobj.c 33-66 *)
Definition year_biobj (y : Z) : res cstr :=
  if (y =? 2016)%Z || (y =? 0)%Z then Ok (str "1-10") else Ok (str "1-15").
Definition desc_biobj : suite_desc :=
  mk_desc 55 0 dims_standard (str "instances: 1-15") year_biobj.
Definition desc_biobj_ext : suite_desc :=
  mk_desc 92 0 dims_standard (str "instances: 1-15") year_biobj.
(** suite_cons_bbob.c 20-46 *)
Definition desc_constrained : suite_desc :=
  mk_desc 54 0 dims_standard (str "year: 2022")
    (fun y => if (2009 <=? y)%Z || (y =? 0)%Z then Ok (str "1-15") else Err).
(** suite_largescale.c 32-53 *)
Definition desc_largescale : suite_desc :=
  mk_desc 24 0 dims_large (str "instances: 1-15")
    (fun y => if (2009 <=? y)%Z || (y =? 0)%Z then Ok (str "1-15") else Err).
(** suite_bbob_mixint.c 32-49, suite_biobj_mixint.c 25-45 *)
Definition desc_mixint : suite_desc :=
  mk_desc 24 0 dims_mixint (str "instances: 1-15") (fun _ => Ok (str "1-15")).
Definition desc_biobj_mixint : suite_desc :=
  mk_desc 92 0 dims_mixint (str "instances: 1-15") (fun _ => Ok (str "1-15")).
(** suite_bbob_noisy.c 27-49 *)
Definition desc_noisy : suite_desc :=
  mk_desc 30 100 dims_standard (str "year:2009")
    (fun y => if (y <=? 2009)%Z then Ok (str "1-15") else Err).

(** coco_suite_intialize, coco_suite.c 37-65: strncmp with 16 characters for the constrained suites. *)
Definition coco_suite_initialize (name : cstr) : res suite_desc :=
  if streq name (str "toy") then Ok desc_toy
  else if streq name (str "bbob") then Ok desc_bbob
  else if streq name (str "bbob-boxed") then Ok desc_boxed
  else if streq name (str "bbob-biobj") then Ok desc_biobj
  else if streq name (str "bbob-biobj-ext") then Ok desc_biobj_ext
  else if streq name (str "bbob-largescale") then Ok desc_largescale
  else if is_prefix (str "bbob-constrained") name then Ok desc_constrained
  else if streq name (str "bbob-mixint") then Ok desc_mixint
  else if streq name (str "bbob-biobj-mixint") then Ok desc_biobj_mixint
  else if streq name (str "bbob-noisy") then Ok desc_noisy
  else Err.
