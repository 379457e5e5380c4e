(** Final statements for the string functions (C09 - C13). *)
From Coq Require Import List Arith NArith ZArith Ascii String Bool.
From Verif Require Import CBase StrModel StrSpec StrProofs.
Import ListNotations.

(** ** C09 *)

(** For a string of digits, dashes and commas, the parser returns the first [mc] of the numbers
    the string denotes, NULL when there are none. *)
Theorem C09_parse_ranges : forall s min max mc l,
  s <> [] -> range_string s -> bounds_fine min max -> 1 <= mc -> range_denotes s min max l ->
  match firstn mc l with
  | [] => coco_string_parse_ranges s min max mc = Ok None
  | _ => exists buf, coco_string_parse_ranges s min max mc = Ok (Some buf) /\
                     holds buf (firstn mc l) (mc + 1)
  end.
Proof. exact parse_ranges_denotes. Qed.

(** Everything else is rejected. *)
Theorem C09_parse_ranges_rejects : forall s min max mc,
  s = [] \/ ~ range_string s \/ ~ bounds_fine min max ->
  coco_string_parse_ranges s min max mc = Ok None.
Proof. exact parse_ranges_rejects. Qed.

(** The denotation used above exists and is unique for every such string. *)
Theorem C09_denotation_exists : forall s min max,
  range_string s -> exists l, range_denotes s min max l.
Proof. exact range_denotes_exists. Qed.

Theorem C09_denotation_unique : forall s min max l1 l2,
  range_denotes s min max l1 -> range_denotes s min max l2 -> l1 = l2.
Proof. exact range_denotes_unique. Qed.

(** "-3,5,7-" with bounds 2..9 *)
Example C09_example :
  range_denotes (str "-3,5,7-") 2 9 [2; 3; 5; 7; 8; 9]%N /\
  coco_string_parse_ranges (str "-3,5,7-") 2 9 8 =
    Ok (Some (map Some [2; 3; 5; 7; 8; 9; 0]%N ++ [None; None])).
Proof.
  split; [|vm_compute; reflexivity].
  exists [str "-3"; str "5"; str "7-"],
    [Interval None (Some 3%N); Interval (Some 5%N) (Some 5%N); Interval (Some 7%N) None].
  split; [|split; [|vm_compute; reflexivity]].
  - destruct (split_correct (str "-3,5,7-") ","%char) as (toks & E & P).
    vm_compute in E. injection E as <-. exact P.
  - constructor; [|constructor; [|constructor; [|constructor]]].
    + apply (means_range [] (str "3")); repeat constructor.
    + apply (means_single (str "5")); [easy|repeat constructor].
    + apply (means_range (str "7") []); repeat constructor.
Qed.

(** ** C10 *)
Theorem C10_parse_ranges_safe : forall s min max mc, 1 <= mc ->
  coco_string_parse_ranges s min max mc = Ok None \/
  exists buf l, coco_string_parse_ranges s min max mc = Ok (Some buf) /\
    holds buf l (mc + 1) /\ 1 <= List.length l <= mc /\
    Forall (fun n => (min <= n)%N /\ (max = 0 \/ n <= max)%N) l.
Proof. exact parse_ranges_safe. Qed.

Example C10_example :
  coco_string_parse_ranges (str "1-100,200") 1 50 5 =
    Ok (Some (map Some [1; 2; 3; 4; 5; 0]%N)).
Proof. vm_compute. reflexivity. Qed.

(** Deviation: a full list (exactly max_count numbers) is accepted by the parser but makes
    coco_count_numbers terminate the program. *)
Theorem C10_count_numbers : forall buf l size mc, holds buf l size ->
  Forall (fun v => (v <> 0)%N) l -> List.length l <= mc ->
  coco_count_numbers buf mc = if List.length l =? mc then Err else Ok (List.length l).
Proof. exact count_numbers_spec. Qed.

Theorem C10_count_full_list_refuted : exists s mc buf,
  coco_string_parse_ranges s 1 0 mc = Ok (Some buf) /\ coco_count_numbers buf mc = Err.
Proof. exists (str "4-6"), 3, (map Some [4; 5; 6; 0]%N). split; vm_compute; reflexivity. Qed.

Example C10_count_example :
  coco_count_numbers (map Some [4; 5; 6; 0]%N) 4 = Ok 3.
Proof. vm_compute. reflexivity. Qed.

(** ** C11 *)
Theorem C11_strfind : forall base seq, seq <> [] ->
  (exists i, first_occurrence base seq i /\
             coco_strfind base seq =
               if (1000000000 <? N.of_nat i)%N then Err else Ok (Z.of_nat i)) \/
  ((forall i, ~ occurs_at base seq i) /\ coco_strfind base seq = Ok (-1)%Z).
Proof. exact strfind_correct. Qed.

Theorem C11_strfind_empty : forall base, no_nul base -> small base ->
  coco_strfind base [] = Ok (Z.of_nat (List.length base)).
Proof. exact strfind_empty. Qed.

Example C11_example :
  coco_strfind (str "a: bb: b: c") (str " b:") = Ok 6%Z /\
  coco_strfind (str "abc") (str "abcd") = Ok (-1)%Z /\ coco_strfind (str "abc") (str "") = Ok 3%Z.
Proof. vm_compute. auto. Qed.

(** ** C12 *)
Theorem C12_trim_blank : forall s, blank s -> coco_string_trim s = Ok [].
Proof. exact trim_blank. Qed.

(** Deviation: when the first non-blank byte is 128 or more, isspace is called outside its domain. *)
Theorem C12_trim : forall l c m r,
  no_nul (l ++ (c :: m) ++ r) -> blank l -> blank r -> isspace c = false -> trimmed (c :: m) ->
  coco_string_trim (l ++ (c :: m) ++ r) = if high_char c then UB else Ok (c :: m).
Proof. exact trim_general. Qed.

(** Every non-blank string has exactly one such decomposition. *)
Theorem C12_trim_decomposition_exists : forall s, ~ blank s ->
  exists l c m r, s = l ++ (c :: m) ++ r /\ blank l /\ blank r /\ isspace c = false /\ trimmed (c :: m).
Proof. exact trim_decomposition_exists. Qed.

Theorem C12_trimmed_unique : forall l1 t1 r1 l2 t2 r2,
  blank l1 -> blank r1 -> trimmed t1 -> blank l2 -> blank r2 -> trimmed t2 ->
  l1 ++ t1 ++ r1 = l2 ++ t2 ++ r2 -> t1 = t2.
Proof. exact trimmed_unique. Qed.

Example C12_example :
  coco_string_trim (str "  a b  ") = Ok (str "a b") /\ coco_string_trim (str " x") = Ok (str "x") /\
  coco_string_trim (str "   ") = Ok [] /\
  coco_string_trim (str " " ++ ["200"%char]) = UB.
Proof. vm_compute. auto. Qed.

(** ** C13 *)
Theorem C13_split : forall s d,
  exists toks, coco_string_split s d = Ok toks /\ pieces d s toks.
Proof. exact split_correct. Qed.

Theorem C13_pieces_unique : forall d s t1, pieces d s t1 -> forall t2, pieces d s t2 -> t1 = t2.
Proof. exact pieces_unique. Qed.

Theorem C13_remove : forall s from to a b,
  (from = [] /\ a = 0 \/ from <> [] /\ first_occurrence s from a) ->
  (to = [] /\ b = List.length s \/ to <> [] /\ first_occurrence s to b) ->
  coco_remove_from_string s from to = if b <? a then Err else Ok (firstn a s ++ skipn b s).
Proof. exact remove_correct. Qed.

Theorem C13_remove_missing : forall s from to,
  (from <> [] /\ forall i, ~ occurs_at s from i) \/ (to <> [] /\ forall i, ~ occurs_at s to i) ->
  coco_remove_from_string s from to = Err.
Proof. exact remove_missing. Qed.

Example C13_example :
  coco_string_split (str ",a,,bc,") ","%char = Ok [str "a"; str "bc"] /\
  coco_remove_from_string (str "bbob_f001_i02_d10") (str "_i") (str "_d") = Ok (str "bbob_f001_d10") /\
  coco_remove_from_string (str "abc") (str "c") (str "a") = Err.
Proof. vm_compute. auto. Qed.

Print Assumptions C09_parse_ranges.
Print Assumptions C09_parse_ranges_rejects.
Print Assumptions C09_denotation_exists.
Print Assumptions C09_denotation_unique.
Print Assumptions C10_parse_ranges_safe.
Print Assumptions C10_count_numbers.
Print Assumptions C11_strfind.
Print Assumptions C11_strfind_empty.
Print Assumptions C12_trim_blank.
Print Assumptions C12_trim.
Print Assumptions C12_trim_decomposition_exists.
Print Assumptions C12_trimmed_unique.
Print Assumptions C13_split.
Print Assumptions C13_pieces_unique.
Print Assumptions C13_remove.
Print Assumptions C13_remove_missing.
Print Assumptions C10_count_full_list_refuted.
