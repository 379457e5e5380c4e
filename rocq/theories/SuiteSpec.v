(** Specifications for suites, independent of the loops of the model. *)
From Coq Require Import List Arith NArith ZArith Ascii String Bool.
From Verif Require Import CBase StrModel StrSpec OptModel OptSpec SuiteModel.
Import ListNotations.

(** Positions from [p] on whose item is present (not filtered out), in increasing order. *)
Definition positions_from (l : list N) (p : nat) : list nat :=
  filter (fun k => negb (nth k l 0 =? 0)%N) (seq p (List.length l - p)).
Definition positions (l : list N) : list nat := positions_from l 0.

(** The combination at (dimension position, function position, instance position). *)
Definition problem_at (s : suite) (c : nat * nat * nat) : problem :=
  let '(d, f, i) := c in
  mk_problem (nth f (functions s) 0%N) (nth d (dimensions s) 0%N) (nth i (instances s) 0%N)
    (N.of_nat (i + f * List.length (instances s) +
               d * List.length (instances s) * List.length (functions s))).

(** All combinations, by dimension, then function, then instance. *)
Definition combinations (s : suite) : list (nat * nat * nat) :=
  flat_map (fun d =>
    flat_map (fun f =>
      map (fun i => (d, f, i)) (positions (instances s)))
      (positions (functions s)))
    (positions (dimensions s)).

Definition all_problems (s : suite) : list problem := map (problem_at s) (combinations s).

(** The number of combinations, filtered or not, fits size_t. *)
Definition size_ok (s : suite) : Prop :=
  (N.of_nat (List.length (instances s)) * N.of_nat (List.length (functions s)) *
   N.of_nat (List.length (dimensions s)) < 2 ^ 64)%N.

(** Something is left in each direction. *)
Definition nonempty (s : suite) : Prop :=
  positions (functions s) <> [] /\ positions (dimensions s) <> [] /\ positions (instances s) <> [].

(** A suite as its constructor leaves it: first function, first dimension, before the first
    instance. *)
Definition fresh (s : suite) : Prop :=
  exists f d fs ds,
    positions (functions s) = f :: fs /\ positions (dimensions s) = d :: ds /\
    cur_function s = Z.of_nat f /\ cur_dimension s = Z.of_nat d /\ cur_instance s = (-1)%Z.

(** Calling get_next_problem n times; the results in order. *)
Fixpoint next_calls (n : nat) (s : suite) : res (list (option problem) * suite) :=
  match n with
  | O => Ok ([], s)
  | S m =>
      do (p, s1) <- coco_suite_get_next_problem s;
      do (ps, s2) <- next_calls m s1;
      Ok (p :: ps, s2)
  end.

(** Same lists of items. *)
Definition same_items (s t : suite) : Prop :=
  functions s = functions t /\ dimensions s = dimensions t /\ instances s = instances t.

(** Keeping the items whose position (counted from 1) or value is selected. *)
Definition keep_positions (items : list N) (sel : list N) (result : list N) : Prop :=
  List.length result = List.length items /\
  forall k x, nth_error items k = Some x ->
    (In (N.of_nat (S k)) sel -> nth_error result k = Some x) /\
    (~ In (N.of_nat (S k)) sel -> nth_error result k = Some 0%N).

Definition keep_values (items : list N) (sel : list N) (result : list N) : Prop :=
  List.length result = List.length items /\
  forall k x, nth_error items k = Some x ->
    (In x sel -> nth_error result k = Some x) /\
    (~ In x sel -> nth_error result k = Some 0%N).

(** First position of a value. *)
Definition first_position (l : list N) (v : N) (k : nat) : Prop :=
  nth_error l k = Some v /\ forall j, j < k -> nth_error l j <> Some v.

(** ** What the option strings select *)

(** The text given for an option (empty if the option is missing). *)
Definition option_text (options key t : cstr) : Prop :=
  ((absent options key \/ named_no_colon options key) /\ t = []) \/
  exists v, named_text options key v /\ value_list v t.

(** The numbers a text stands for; none when the text is not a list of ranges. *)
Definition text_numbers (t : cstr) (min max : N) (l : list N) : Prop :=
  (t <> [] /\ range_string t /\ bounds_fine min max /\ range_denotes t min max l) \/
  ((t = [] \/ ~ range_string t \/ ~ bounds_fine min max) /\ l = []).

(** Selection by position; a text that gives no number selects everything. *)
Definition select_positions (options key : cstr) (items r : list N) : Prop :=
  exists t l, option_text options key t /\
    text_numbers t 1 (N.of_nat (List.length items)) l /\
    (l = [] /\ r = items \/ l <> [] /\ keep_positions items l r).

(** The numbers before the first 0 (a 0 can only be read when the first dimension was filtered
    out before, and ends the list). *)
Fixpoint upto_zero (l : list N) : list N :=
  match l with
  | [] => []
  | n :: l' => if (n =? 0)%N then [] else n :: upto_zero l'
  end.

(** Selection of dimensions by value; only numbers between the first and the last dimension are
    understood. *)
Definition select_values (options key : cstr) (items r : list N) : Prop :=
  exists t l, option_text options key t /\
    text_numbers t (nth 0 items 0%N) (last items 0%N) l /\
    (l = [] /\ r = items \/ l <> [] /\ keep_values items (upto_zero l) r).

(** Digits and commas only. *)
Definition plain_list (t : cstr) : Prop := Forall (fun c => c = ","%char \/ isdigit c = true) t.

(** How the two dimension options together select: when both names occur behind the start of the
    string, the first of them counts; otherwise both are applied, positions first. *)
Definition select_dimensions (options : cstr) (items r : list N) : Prop :=
  (exists i j, first_occurrence options (str "dimensions") i /\
     first_occurrence options (str "dimension_indices") j /\ 0 < i < j /\
     select_values options (str "dimensions") items r) \/
  (exists i j, first_occurrence options (str "dimensions") i /\
     first_occurrence options (str "dimension_indices") j /\ 0 < j < i /\
     select_positions options (str "dimension_indices") items r) \/
  ((forall i j, first_occurrence options (str "dimensions") i ->
     first_occurrence options (str "dimension_indices") j -> i = 0 \/ j = 0) /\
   exists mid, select_positions options (str "dimension_indices") items mid /\
     select_values options (str "dimensions") mid r).

(** The year given in a string: decimal digits not starting with 0. *)
Definition year_written (v : cstr) (y : Z) : Prop :=
  exists b w rest, v = b ++ w ++ rest /\ blank b /\ digits w /\
    (exists c w', w = c :: w' /\ c <> "0"%char) /\
    (forall c r, rest = c :: r -> isdigit c = false) /\ y = Z.of_N (dec w).

(** The instance numbers a year stands for, and those listed explicitly. *)
Definition year_gives (d : suite_desc) (s : cstr) (l : list N) : Prop :=
  exists v y ys, named_text s (str "year") v /\ year_written v y /\ (y <= 2147483647)%Z /\
    sd_year d y = Ok ys /\ text_numbers ys 1 0 l.
Definition instances_give (s t : cstr) (l : list N) : Prop :=
  option_text s (str "instances") t /\ text_numbers t 1 0 l.

(** How the two keys of the instance string work together.  When both names occur behind the
    start of the string, the first of them counts.  Otherwise the year is looked up, but an
    explicit list replaces it. *)
Inductive instance_list (d : suite_desc) (s : cstr) : list N -> Prop :=
| il_year_first : forall i j l, first_occurrence s (str "year") i ->
    first_occurrence s (str "instances") j -> 0 < i < j -> year_gives d s l -> instance_list d s l
| il_instances_first : forall i j t l, first_occurrence s (str "year") i ->
    first_occurrence s (str "instances") j -> 0 < j < i ->
    instances_give s t l -> List.length t < 1000 -> instance_list d s l
| il_both : forall i j ly t l, first_occurrence s (str "year") i ->
    first_occurrence s (str "instances") j -> i = 0 \/ j = 0 ->
    year_gives d s ly -> instances_give s t l -> t <> [] -> List.length t < 1000 ->
    instance_list d s l
| il_year_only : forall l, absent s (str "instances") -> year_gives d s l -> instance_list d s l
| il_instances_only : forall t l, absent s (str "year") -> instances_give s t l ->
    List.length t < 1000 -> instance_list d s l.

(** A suite's fixed data: at least one function and dimension, no dimension 0, not too many. *)
Definition desc_ok (d : suite_desc) : Prop :=
  1 <= sd_functions d <= 1000 /\ sd_dimensions d <> [] /\ List.length (sd_dimensions d) <= 1000 /\
  Forall (fun v => v <> 0%N) (sd_dimensions d) /\ small (sd_default d).

(** The numbers of all functions of a suite. *)
Definition all_functions (d : suite_desc) : list N :=
  map (fun i => (N.of_nat i + 1 + sd_offset d)%N) (seq 0 (sd_functions d)).


(** Order of combinations: dimension, then function, then instance. *)
Definition lexlt (a b : nat * nat * nat) : Prop :=
  let '(d, f, i) := a in let '(d', f', i') := b in
  d < d' \/ d = d' /\ (f < f' \/ f = f' /\ i < i').


(** A list repeated. *)
Fixpoint times {A} (k : nat) (l : list A) : list A :=
  match k with O => [] | S k' => l ++ times k' l end.

(** No list is empty. *)
Definition all_sizes_positive (s : suite) : Prop :=
  0 < List.length (functions s) /\ 0 < List.length (dimensions s) /\ 0 < List.length (instances s).

(** NULL for no number, otherwise an array with (the first 1000 of) the numbers. *)
Definition gives (r : option numbers) (l : list N) : Prop :=
  l = [] /\ r = None \/
  l <> [] /\ exists buf, r = Some buf /\ holds buf (firstn MAX_INSTANCES l) (MAX_INSTANCES + 1).
