(** Specification of counting and reporting consecutive problems. *)
From Coq Require Import List Arith NArith ZArith Ascii String Bool.
From Verif Require Import CBase IdModel IdSpec PyInfoModel.
Import ListNotations.
Local Open Scope nat_scope.
Local Open Scope list_scope.

(** A problem of a suite: function, instance and dimension *)
Record numbers := mk_numbers { fn : N; inst : N; dim : N }.
Definition proper (p : numbers) : Prop := (fn p < 2 ^ 64)%N /\ (inst p < 2 ^ 64)%N /\ (0 < dim p < 2 ^ 64)%N.
(** Same function in the same dimension *)
Definition alike (p q : numbers) : Prop := fn p = fn q /\ dim p = dim q.
(** ids are the ids of the problems ps of suite s, in this order *)
Definition ids_of (s : suite_id) (ps : list numbers) (ids : list cstr) : Prop :=
  Forall2 (fun p id => suite_problem_id s (fn p) (inst p) (dim p) = Ok id) ps ids.

(** The problems before the present one, latest first: exactly the first n are alike p. *)
Definition directly_before (former : list numbers) (p : numbers) (n : nat) : Prop :=
  exists block rest, former = block ++ rest /\ List.length block = n /\ Forall (alike p) block /\
    match rest with [] => True | q :: _ => ~ alike p q end.

(** The report for problem p: [former] are the problems before with the numbers of runs, latest first. *)
Definition sum (l : list N) : N := fold_right N.add 0%N l.
Inductive announces (former : list (numbers * N)) (p : numbers) : list piece -> Prop :=
  | first_problem : forall w t, former = [] -> numeral w (fn p) t -> announces former p [Running (dim p); Name ("f"%char :: t)]
  | same_problem : forall q r rest, former = (q, r) :: rest -> alike p q -> announces former p []
  | next_function : forall q r rest w t block others, former = (q, r) :: rest -> dim p = dim q -> fn p <> fn q -> numeral w (fn p) t ->
      former = block ++ others -> Forall (fun x => alike q (fst x)) block -> match others with [] => True | x :: _ => ~ alike q (fst x) end ->
      announces former p [FunctionDone (sum (map snd block)); Name ("f"%char :: t)]
  | next_dimension : forall q r rest w t block others, former = (q, r) :: rest -> dim p <> dim q -> numeral w (fn p) t ->
      former = block ++ others -> Forall (fun x => alike q (fst x)) block -> match others with [] => True | x :: _ => ~ alike q (fst x) end ->
      announces former p [FunctionDone (sum (map snd block)); DimensionDone (dim q); Running (dim p); Name ("f"%char :: t)].
