(** Model of SameFunction and ShortInfo, build/python/src/cocoex/utilities.py 368-423 and 485-551. *)
From Coq Require Import List Arith NArith ZArith Ascii String Bool.
From Verif Require Import CBase StrModel PyArgModel.
Import ListNotations.
Local Open Scope nat_scope.

(** Lines 408-411: the pieces of an id between underscores without those that start with "i" *)
Definition key (id : cstr) : list cstr := filter (fun p => negb (startswith p (str "i"))) (split "_" id).
Fixpoint key_eq (a b : list cstr) : bool :=
  match a, b with
  | [], [] => true
  | x :: a', y :: b' => streq x y && key_eq a' b'
  | _, _ => false
  end.
(** Lines 412-423; the attribute last exists after the first call *)
Record same := mk_same { count : nat; last : list cstr }.
Definition same_init : same := mk_same 0 [].
Definition same_call (s : same) (id : cstr) : nat * same :=
  let new := key id in
  let c := if (count s =? 0) || negb (key_eq new (last s)) then 0 else count s in
  (c, mk_same (S c) new).
Fixpoint same_calls (s : same) (ids : list cstr) : list nat :=
  match ids with [] => [] | id :: ids' => let '(n, s') := same_call s id in n :: same_calls s' ids' end.

(** ShortInfo.  The printed text consists of these pieces: the end of a function with its number of runs (line 525), the end of a dimension
    with the time per evaluation (line 518), the beginning of a dimension (line 541) and the name of a function (line 547).  Times and blanks
    are left out. *)
Inductive piece := FunctionDone (runs : N) | DimensionDone (d : N) | Running (d : N) | Name (f : cstr).
Inductive report := Text (l : list piece) | IndexError | OverflowError | ZeroDivisionError.
Record short_info := mk_info { f_current : option cstr; d_current : N; evals_dimension : N; runs_function : N }.
(** Lines 500-506 *)
Definition info_init : short_info := mk_info None 0 0 0.
(** Lines 512-514 *)
Definition add_evals (s : short_info) (evals runs : N) : short_info :=
  mk_info (f_current s) (d_current s) (evals_dimension s + evals) (runs_function s + runs).

(** str.lower for ASCII *)
Definition lower_char (c : ascii) : ascii :=
  let n := N_of_ascii c in if ((65 <=? n) && (n <=? 90))%N then ascii_of_N (n + 32) else c.
(** The text behind the first "_f"; [None] if there is none *)
Fixpoint behind_f (s : cstr) : option cstr :=
  match s with
  | [] => None
  | c :: s' => match s' with
               | c' :: s'' => if Ascii.eqb c "_" && Ascii.eqb c' "f" then Some s'' else behind_f s'
               | [] => None
               end
  end.
(** Line 532: the text behind the first "_f" up to the next underscore ([1] also ends before a second "_f", which begins with an
    underscore); [None] for IndexError *)
Definition function_name (id : cstr) : option cstr :=
  match behind_f (map lower_char id) with
  | None => None
  | Some t => Some ("f"%char :: hd [] (split "_" t))
  end.

(** Lines 529-551.  Line 525: the logarithm of 0 runs is -inf, int of it an OverflowError.  Line 517: division by the number of evaluations.
    d_current = 0 counts as "no dimension yet" (line 541). *)
Definition info_call (s : short_info) (id : cstr) (dimension : N) : report * short_info :=
  match function_name id with
  | None => (IndexError, s)
  | Some f =>
      let ran_once := match f_current s with None => false | Some _ => true end in
      let f_changed := match f_current s with None => true | Some g => negb (streq f g) end in
      let d_changed := negb (dimension =? d_current s)%N in
      let run_complete := f_changed || d_changed in
      let ends := ran_once && run_complete in
      if ends && (runs_function s =? 0)%N then (OverflowError, s) else
      let s1 := if ends then mk_info (f_current s) (d_current s) (evals_dimension s) 0 else s in
      let old := negb (d_current s =? 0)%N in
      if d_changed && old && (evals_dimension s =? 0)%N then (ZeroDivisionError, s1) else
      let s2 := if d_changed then mk_info (f_current s1) dimension (if old then 0%N else evals_dimension s1) (runs_function s1) else s1 in
      (Text ((if ends then [FunctionDone (runs_function s)] else []) ++
             (if d_changed then (if old then [DimensionDone (d_current s)] else []) ++ [Running dimension] else []) ++
             (if run_complete then [Name f] else [])),
       if f_changed then mk_info (Some f) (d_current s2) (evals_dimension s2) (runs_function s2) else s2)
  end.

(** A loop over problems: the call, then the solver with its evaluations and runs (lines 512-514), as in build/python/example/example_experiment.py 93-99. *)
Fixpoint info_loop (s : short_info) (l : list (cstr * N * (N * N))) : list report :=
  match l with
  | [] => []
  | (id, d, (evals, runs)) :: l' => let '(r, s') := info_call s id d in r :: info_loop (add_evals s' evals runs) l'
  end.
