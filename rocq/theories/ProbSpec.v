(** Specification of evaluation counting and of the best observed value. *)
From Coq Require Import List Arith NArith ZArith Reals Bool.
From Flocq Require Import Core BinarySingleNaN.
Import ListNotations.
From Verif Require Import CBase DblModel DblSpec ProbModel.
Open Scope R_scope.

Definition infinite (v : double) : Prop := num v /\ ~ fin v.

(** A vector is regular, contains an infinity, or contains no infinity but a NaN. *)
Definition regular (x : list double) : Prop := Forall fin x.
Definition has_inf (x : list double) : Prop := Exists infinite x.
Definition has_nan_only (x : list double) : Prop := ~ has_inf x /\ Exists (fun v => ~ num v) x.

Definition argument (c : call) : list double :=
  match c with Evaluate x => x | Constrain x => x | Recommend x => x end.

(** Decidable form, to count. *)
Definition regularb (x : list double) : bool := forallb is_finite x.

(** The numbers of calls that are to be counted. *)
Definition counted_evaluations (cs : list call) : nat :=
  length (filter (fun c => match c with Evaluate x => regularb x | _ => false end) cs).
Definition counted_constraints (cs : list call) : nat :=
  length (filter (fun c => match c with Constrain x => regularb x | _ => false end) cs).

(** The constraints of problems of class C with n variables are the function g of the decision vector,
    as long as the data satisfies I, which every method preserves. *)
Definition constraints_are (C : class) (n : nat) (I : data C -> Prop) (g : list double -> list double) : Prop :=
  (forall h d x y d', I d -> number_of_variables h = n -> evaluate_function C h d x = Ok (y, d') -> I d') /\
  (forall f, recommend_solution C = Some f ->
     forall h d x d', I d -> number_of_variables h = n -> f h d x = Ok d' -> I d') /\
  (forall f, evaluate_constraint C = Some f ->
     forall h d x u vs d', I d -> number_of_variables h = n -> f h d x u = Ok (vs, d') ->
       I d' /\ (length x = n -> regular x -> vs = g x)).

(** The methods of the class succeed, with the right numbers of values. *)
Definition never_fails (C : class) (n no nc : nat) (I : data C -> Prop) : Prop :=
  (forall h d x, I d -> number_of_variables h = n -> length x = n -> regular x ->
     exists y d', evaluate_function C h d x = Ok (y, d') /\ I d' /\ length y = no) /\
  (forall f, recommend_solution C = Some f ->
     forall h d x, I d -> number_of_variables h = n -> length x = n -> exists d', f h d x = Ok d' /\ I d') /\
  (nc = 0%nat \/ exists f, evaluate_constraint C = Some f /\
     forall h d x u, I d -> number_of_variables h = n -> length x = n ->
     exists vs d', f h d x u = Ok (vs, d') /\ I d' /\ length vs = nc).

(** None of the first nc constraint values is positive (a NaN is not positive). *)
Definition feasible (nc : nat) (g : list double -> list double) (x : list double) : Prop :=
  nc = 0%nat \/ Forall (fun v => ~ (num v /\ 0 < val v)) (firstn nc (g x)).

(** The counted evaluations of a session in order: decision vector and first objective value. *)
Fixpoint observed (cs : list call) (ys : list (list double)) : list (list double * double) :=
  match cs, ys with
  | Evaluate x :: cs', y :: ys' =>
    if regularb x then (x, hd dnan y) :: observed cs' ys' else observed cs' ys'
  | _ :: cs', _ :: ys' => observed cs' ys'
  | _, _ => []
  end.

(** [below a b]: the double a is less than b (never true for a NaN). *)
Definition below (a b : double) : Prop := num a /\ num b /\ val a < val b.

(** (v, k) is the smallest feasible value among the records and the number of the first record that
    attains it, counted from e; (start, s) if no feasible record is below start. *)
Definition is_best (ok : list double -> Prop) (start : double) (s e : N) (rs : list (list double * double))
    (v : double) (k : N) : Prop :=
  (v = start /\ k = s /\ forall x y, In (x, y) rs -> ok x -> ~ below y start)
  \/ (exists i x, k = (e + N.of_nat i + 1)%N /\ nth_error rs i = Some (x, v) /\ ok x /\ below v start /\
       (forall x' y', In (x', y') rs -> ok x' -> ~ below y' v) /\
       (forall j x' y', (j < i)%nat -> nth_error rs j = Some (x', y') -> ok x' -> ~ num y' \/ below v y')).

(** What one needs of a start: no evaluation yet. *)
Definition fresh (h : header) : Prop :=
  evaluations h = 0%N /\ best_observed_fvalue h = DBL_MAX /\ best_observed_evaluation h = 0%N.

(** The calls of a session have arguments of the right size. *)
Definition sized (n : nat) (cs : list call) : Prop := Forall (fun c => length (argument c) = n) cs.

(** The value y reaches the final target: the best value plus the precision, rounded to a double. *)
Definition reaches (best delta y : double) : Prop := num y /\ val y <= clamp (rnd (val best + val delta)).
