(** Model of src/coco_string.c, function by function. *)
From Coq Require Import List Arith NArith ZArith Ascii String Bool.
From Verif Require Import CBase.
Import ListNotations.

(** ** coco_strfind: src/coco_string.c 103-126 *)

(** Inner loop, lines 113-116 and the test j == strlen_seq of line 117: compares base[i + j] with
    seq[j] for j = j0, j0+1, ...  [rest] is seq from position j on. *)
Fixpoint strfind_match (base : cstr) (i j : nat) (rest : cstr) : res bool :=
  match rest with
  | [] => Ok true
  | c :: rest' =>
      do b <- cget base (i + j);
      if Ascii.eqb b c then strfind_match base i (S j) rest' else Ok false
  end.

(** Outer loop, lines 111-125, for [n] remaining values of i.  [seq[0]] is the NUL for an empty
    seq (line 112). The guard of line 118 is the outcome [Err]. *)
Fixpoint strfind_loop (base seq : cstr) (i n : nat) : res Z :=
  match n with
  | O => Ok (-1)%Z
  | S n' =>
      do b <- cget base i;
      do s0 <- cget seq 0;
      if Ascii.eqb b s0 then
        do m <- strfind_match base i 0 seq;
        if m then
          if (1000000000 <? N.of_nat i)%N then Err else Ok (Z.of_nat i)
        else strfind_loop base seq (S i) n'
      else strfind_loop base seq (S i) n'
  end.

(** Lines 103-126.  The subtraction of line 105 may wrap, but its result is used only after the
    test of line 108. *)
Definition coco_strfind (base seq : cstr) : res Z :=
  if List.length base <? List.length seq then Ok (-1)%Z
  else strfind_loop base seq 0 (List.length base - List.length seq + 1).

(** ** coco_string_split: src/coco_string.c 140-181 *)

(** strtok with a one-character delimiter set, called until it returns NULL (lines 170-175):
    leading delimiters are skipped, a token extends to the next delimiter.  [cur] is the current
    token reversed. *)
Fixpoint strtok_all (d : ascii) (s : cstr) (cur : cstr) : list cstr :=
  match s with
  | [] => match cur with [] => [] | _ => [rev cur] end
  | c :: s' =>
      if Ascii.eqb c d then
        match cur with [] => strtok_all d s' [] | _ => rev cur :: strtok_all d s' [] end
      else strtok_all d s' (c :: cur)
  end.

(** Lines 146-159: 1 + number of delimiters + 1. *)
Fixpoint count_char (d : ascii) (s : cstr) : nat :=
  match s with [] => 0 | c :: s' => (if Ascii.eqb c d then 1 else 0) + count_char d s' end.

(** Lines 163-176: [assert(i < count)] for every token and the store of the final NULL at index
    i must be inside the array of [count] pointers. *)
Definition coco_string_split (s : cstr) (d : ascii) : res (list cstr) :=
  let count := 1 + count_char d s + 1 in
  let toks := strtok_all d s [] in
  if List.length toks <? count then Ok toks else UB.

(** ** coco_remove_from_string: src/coco_string.c 191-218 *)

(** strstr (libc): position of the first occurrence of a non-empty needle. *)
Fixpoint is_prefix (p s : cstr) : bool :=
  match p, s with
  | [], _ => true
  | _ :: _, [] => false
  | a :: p', b :: s' => Ascii.eqb a b && is_prefix p' s'
  end.

Fixpoint strstr (s needle : cstr) : option nat :=
  if is_prefix needle s then Some 0
  else match s with [] => None | _ :: s' => option_map S (strstr s' needle) end.

(** Lines 191-218; memmove (line 215) moves the tail starting at [stop] to [start]. *)
Definition coco_remove_from_string (s from to : cstr) : res cstr :=
  let start := match from with [] => Some 0 | _ => strstr s from end in
  let stop := match to with [] => Some (List.length s) | _ => strstr s to end in
  match start, stop with
  | Some a, Some b => if b <? a then Err else Ok (firstn a s ++ skipn b s)
  | _, _ => Err
  end.

(** ** coco_string_parse_ranges: src/coco_string.c 229-427 *)

Definition LONG_MAX : N := 9223372036854775807%N.  (* 2^63 - 1, LP64 *)
Definition DASH : ascii := "-"%char.
Definition COMMA : ascii := ","%char.

Definition digit_val (c : ascii) : N := N.of_nat (code c - 48).

(** (size_t) strtol(ptr, NULL, 10) on a string of digits: the decimal value, LONG_MAX when it does
    not fit.  Only reached with digit strings because of lines 249-258.  The accumulator is
    saturated at each step, which gives the same result as saturating at the end. *)
Fixpoint strtol_acc (acc : N) (s : cstr) : N :=
  match s with
  | [] => acc
  | c :: s' =>
      if isdigit c then strtol_acc (N.min LONG_MAX (10 * acc + digit_val c)%N) s' else acc
  end.
Definition strtol (s : cstr) : N := strtol_acc 0 s.

(** Lines 249-258. *)
Definition allowed_char (c : ascii) : bool :=
  Ascii.eqb c DASH || Ascii.eqb c COMMA || isdigit c.

(** What the code knows after looking at one comma separated piece, lines 277-381.
    [RStop] stands for the early exits (lines 293-304, 325-339, 345-358, 363-376), which all clean up
    and return the numbers read so far; [RNums] holds num[0], num[1]. *)
Inductive range_read := RStop | RNums (n0 n1 : N).

Definition read_range (r : cstr) (min max : N) : res range_read :=
  let count := count_char DASH r in                       (* 278-288 *)
  if 1 <? count then Ok RStop                             (* 293-304 *)
  else if count =? 0 then                                 (* 305-308 *)
    Ok (RNums (strtol r) (strtol r))
  else
    do numbers <- coco_string_split r DASH;               (* 313 *)
    match numbers with                                    (* 315-324: num[] has two elements *)
    | [] =>                                               (* 325-341: "-" *)
        if (min =? 0)%N || (max =? 0)%N then Ok RStop else Ok (RNums min max)
    | [a] =>
        (* 343: position of the first dash relative to the start of the piece; [dash] was set when
           the (single) dash was met *)
        match r with
        | c :: _ =>
            if Ascii.eqb c DASH then                      (* 344-360: "-n" *)
              if (min =? 0)%N then Ok RStop else Ok (RNums min (strtol a))
            else                                          (* 361-378: "n-" *)
              if (max =? 0)%N then Ok RStop else Ok (RNums (strtol a) max)
        | [] => UB
        end
    | [a; b] => Ok (RNums (strtol a) (strtol b))          (* 380 *)
    | _ => UB                                             (* assert(j < 2), line 318 *)
    end.

(** Lines 383-391: clamping. *)
Definition clamp_lo (min n0 : N) : N := if (0 <? min)%N && (n0 <? min)%N then min else n0.
Definition clamp_hi (max n1 : N) : N := if (0 <? max)%N && (max <? n1)%N then max else n1.

(** Lines 406-411.  [buf] is the array [result] (indeterminate cells are [None]), [n] counts
    max_count - i_result, i.e. the loop leaves when i_result > max_count - 1 (max_count >= 1). *)
Fixpoint write_range (buf : list (option N)) (i_result n : nat) (j hi : N)
  : res (list (option N) * nat) :=
  if (j <=? hi)%N then
    match n with
    | O => Ok (buf, i_result)
    | S n' =>
        do buf' <- mset buf i_result (Some j);
        write_range buf' (S i_result) n' (j + 1) hi
    end
  else Ok (buf, i_result).

(** Lines 275-415: loop over the pieces, carrying [result] and [i_result]. *)
Fixpoint ranges_loop (ranges : list cstr) (min max : N) (max_count : nat)
    (buf : list (option N)) (i_result : nat) : res (list (option N) * nat) :=
  match ranges with
  | [] => Ok (buf, i_result)
  | r :: ranges' =>
      do rr <- read_range r min max;
      match rr with
      | RStop => Ok (buf, i_result)
      | RNums n0 n1 =>
          let n0' := clamp_lo min n0 in
          let n1' := clamp_hi max n1 in
          if (n1' <? n0')%N then Ok (buf, i_result)       (* 392-404 *)
          else
            do (buf', i') <- write_range buf i_result (max_count - i_result) n0' n1';
            ranges_loop ranges' min max max_count buf' i'
      end
  end.

(** Lines 229-427.  The result is the array [result] (of max_count + 1 cells), [None] is NULL.
    coco_allocate_vector_size_t returns indeterminate memory.  The overflow of max_count + 1 and
    allocation failure are not modelled. *)
Definition coco_string_parse_ranges (s : cstr) (min max : N) (max_count : nat)
  : res (option (list (option N))) :=
  match s with
  | [] => Ok None                                                       (* 242-247 *)
  | _ =>
      if negb (forallb allowed_char s) then Ok None                     (* 249-258 *)
      else if (0 <? max)%N && (max <? min)%N then Ok None               (* 260-265 *)
      else
        let buf := repeat None (max_count + 1) in                       (* 267 *)
        do ranges <- coco_string_split s COMMA;                         (* 270 *)
        do (buf', i_result) <- ranges_loop ranges min max max_count buf 0;
        if i_result =? 0 then Ok None                                   (* 420-423 *)
        else do buf'' <- mset buf' i_result (Some 0%N); Ok (Some buf'') (* 425-426 *)
  end.

(** ** coco_count_numbers: src/coco_utilities.c 1136-1148 *)

(** Reading an indeterminate cell or beyond the array is [UB]. *)
Fixpoint count_loop (numbers : list (option N)) (count n : nat) : res nat :=
  match n with
  | O => Ok count
  | S n' =>
      do c <- mget numbers count;
      match c with
      | None => UB
      | Some v => if (v =? 0)%N then Ok count else count_loop numbers (S count) n'
      end
  end.
Definition coco_count_numbers (numbers : list (option N)) (max_count : nat) : res nat :=
  do count <- count_loop numbers 0 max_count;
  if count =? max_count then Err else Ok count.

(** The numbers a caller gets: reading the array up to coco_count_numbers. *)
Fixpoint read_numbers (numbers : list (option N)) (n : nat) : res (list N) :=
  match n, numbers with
  | O, _ => Ok []
  | S n', Some v :: t => do r <- read_numbers t n'; Ok (v :: r)
  | S _, _ => UB
  end.

(** ** coco_string_trim: src/coco_string.c 435-482, on a buffer holding the string and its NUL *)

(** isspace with an argument of type char converted to int (line 452, no cast to unsigned char):
    the behaviour is undefined for negative values, i.e. for codes from 128 on (signed char). *)
Definition isspace_char (c : ascii) : res bool :=
  if high_char c then UB else Ok (isspace c).

(** Lines 451-452. *)
Fixpoint trim_all_ws (buf : list ascii) (i n : nat) : res bool :=
  match n with
  | O => Ok true
  | S n' =>
      do c <- mget buf i;
      do w <- isspace_char c;
      if w then trim_all_ws buf (S i) n' else Ok false
  end.

(** Lines 459-461; fuel = size of the buffer, never exhausted inside the buffer. *)
Fixpoint trim_front (buf : list ascii) (frontp n : nat) : res nat :=
  match n with
  | O => UB
  | S n' =>
      do c <- mget buf frontp;
      if isspace c then trim_front buf (S frontp) n' else Ok frontp
  end.

(** Lines 463-464: the pre-decrement happens first; a decrement below the start of the buffer is
    [UB]. *)
Fixpoint trim_end (buf : list ascii) (endp frontp : nat) : res nat :=
  match endp with
  | O => UB
  | S e =>
      do c <- mget buf e;
      if isspace c && negb (e =? frontp) then trim_end buf e frontp else Ok e
  end.

(** Lines 475-477. *)
Fixpoint trim_shift (buf : list ascii) (endp frontp n : nat) : res (list ascii * nat) :=
  match n with
  | O => UB
  | S n' =>
      do c <- mget buf frontp;
      if Ascii.eqb c NUL then Ok (buf, endp)
      else do buf' <- mset buf endp c; trim_shift buf' (S endp) (S frontp) n'
  end.

Definition coco_string_trim (s : cstr) : res cstr :=
  match s with
  | [] => Ok []                                                     (* 444-446 *)
  | _ =>
      let len := List.length s in
      let buf := s ++ [NUL] in
      do allws <- trim_all_ws buf 0 len;
      if allws then Ok (cstr_of (upd buf 0 NUL))                    (* 453-456 *)
      else
        do frontp <- trim_front buf 0 (len + 1);
        do endp <- (if len =? frontp then Ok len else trim_end buf len frontp);
        do buf1 <- (if negb (len - 1 =? endp) then mset buf (endp + 1) NUL       (* 467-468 *)
                    else if negb (frontp =? 0) && (endp =? frontp)
                         then mset buf 0 NUL else Ok buf);                     (* 469-470 *)
        if negb (frontp =? 0) then                                  (* 474-479 *)
          do (buf2, e2) <- trim_shift buf1 0 frontp (len + 1);
          do buf3 <- mset buf2 e2 NUL;
          Ok (cstr_of buf3)
        else Ok (cstr_of buf1)
  end.
